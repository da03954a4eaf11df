(** How a client answers a challenge. *)
From Coq Require Import String Arith NArith Bool List Lia ZifyBool ZifyN ZifyNat.
Import ListNotations.
From Verif Require Import Base BaseFacts NumFacts Headers HeadersProofs Method Text TextFacts Uri Msg Message AnyUri Dialog Auth AuthSpec AuthProofs Uac UacSend UacSpec UacProofs.
Open Scope N_scope.
Open Scope list_scope.

(** ** Reading a challenge *)
Lemma commas_plain : forall s cur r, mem 34 s = false -> mem 44 s = false -> commas false cur (s ++ r) = commas false (rev s ++ cur) r.
Proof.
  induction s as [|c s IH]; intros cur r H1 H2; [reflexivity|].
  apply mem_cons_false in H1. apply mem_cons_false in H2. destruct H1 as [A1 B1], H2 as [A2 B2].
  cbn [app commas]. destruct (c =? 34) eqn:E1; [lia|]. destruct (c =? 44) eqn:E2; [lia|]. cbn [andb].
  rewrite IH by assumption. cbn [rev]. now rewrite <- app_assoc.
Qed.
Lemma commas_quoted : forall s cur r, mem 34 s = false -> commas true cur (s ++ r) = commas true (rev s ++ cur) r.
Proof.
  induction s as [|c s IH]; intros cur r H1; [reflexivity|]. apply mem_cons_false in H1. destruct H1 as [A1 B1].
  cbn [app commas negb]. rewrite andb_false_r. destruct (c =? 34) eqn:E1; [lia|]. rewrite IH by assumption. cbn [rev]. now rewrite <- app_assoc.
Qed.
Lemma commas_field : forall f cur r, field_ok f -> commas false cur (render f ++ r) = commas false (rev (render f) ++ cur) r.
Proof.
  intros f cur r [Hn [Hv Hq]]. unfold render. destruct (f_quoted f).
  - rewrite <- !app_assoc. rewrite commas_plain by (apply name_plain_mem; auto). rewrite (commas_plain [61]) by reflexivity. cbn [rev app].
    cbn [app commas N.eqb Pos.eqb andb negb]. rewrite commas_quoted by assumption. cbn [app commas N.eqb Pos.eqb andb negb].
    rewrite !rev_app_distr. cbn [rev app]. rewrite rev_app_distr. cbn [rev app]. rewrite <- !app_assoc. reflexivity.
  - destruct Hq as [Hq _]. rewrite <- !app_assoc. rewrite commas_plain by (apply name_plain_mem; auto). rewrite (commas_plain [61]) by reflexivity. rewrite commas_plain by assumption.
    rewrite !rev_app_distr. cbn [rev app]. rewrite <- !app_assoc. reflexivity.
Qed.
Lemma render_nonempty : forall f, field_ok f -> render f <> [].
Proof. intros f [[Hn _] _]. unfold render. destruct (f_name f); [easy|discriminate]. Qed.
Lemma commas_fields : forall fs f cur, field_ok f -> Forall field_ok fs -> cur = [] \/ cur = [32] ->
  commas false cur (join sep (map render (f :: fs))) = map render (f :: fs).
Proof.
  induction fs as [|g fs IH]; intros f cur Hf Hfs Hc.
  - cbn [map join]. rewrite <- (app_nil_r (render f)) at 1. rewrite commas_field by assumption. cbn [commas]. rewrite rev_app_distr, rev_involutive.
    assert (T : trim (rev cur ++ render f) = render f) by (destruct Hc as [-> | ->]; cbn [rev app]; rewrite ?trim_cons32; now apply trim_render). rewrite T.
    pose proof (render_nonempty f Hf). destruct (render f); [congruence|reflexivity].
  - cbn [map]. replace (join sep (render f :: render g :: map render fs)) with (render f ++ sep ++ join sep (map render (g :: fs))) by reflexivity.
    rewrite commas_field by assumption. change (sep ++ join sep (map render (g :: fs))) with (44 :: 32 :: join sep (map render (g :: fs))).
    inversion Hfs as [|? ? Hg Hr]; subst. cbn [commas N.eqb Pos.eqb andb negb]. rewrite rev_app_distr, rev_involutive.
    assert (T : trim (rev cur ++ render f) = render f) by (destruct Hc as [-> | ->]; cbn [rev app]; rewrite ?trim_cons32; now apply trim_render). rewrite T.
    rewrite (IH g [32] Hg Hr (or_intror eq_refl)). pose proof (render_nonempty f Hf). destruct (render f); [congruence|reflexivity].
Qed.
Lemma param_render : forall f, field_ok f -> challenge_param (render f) = Some (f_name f, if f_quoted f then [34] ++ f_value f ++ [34] else f_value f).
Proof.
  intros f Hf. assert (Hf2 := Hf). destruct Hf2 as [Hn [Hv Hq]]. unfold challenge_param. cbv zeta. rewrite trim_render by assumption.
  assert (S : strip_prefix (lit "Digest") (render f) = None).
  { unfold render. destruct Hn as (N1 & N2 & N3). destruct (f_name f) as [|c n]; [easy|]. cbn [app]. unfold strip_prefix. cbn -[N.eqb].
    destruct (68 =? c) eqn:E; [|reflexivity]. apply N.eqb_eq in E. subst c. discriminate N3. }
  rewrite S. assert (T : trim_start (render f) = render f).
  { unfold trim_start, trim_start_by. apply drop_while_id. destruct (render_no_edge f Hf) as [E _]. exact E. }
  rewrite T. unfold render. rewrite split_once_plain by (apply name_plain_mem; auto). rewrite (name_plain_trim _ Hn).
  assert (V : trim (if f_quoted f then [34] ++ f_value f ++ [34] else f_value f) = (if f_quoted f then [34] ++ f_value f ++ [34] else f_value f)); [|f_equal; f_equal; exact V].
  destruct (f_quoted f); [|now apply trim_by_id]. apply trim_by_id. split; [reflexivity|]. rewrite !rev_app_distr. reflexivity.
Qed.
Lemma unquote_render : forall f, field_ok f -> unquote (if f_quoted f then [34] ++ f_value f ++ [34] else f_value f) = Ret (f_value f).
Proof.
  intros f [Hn [Hv Hq]]. destruct (f_quoted f).
  - unfold unquote. cbn [app]. replace (rev (34 :: f_value f ++ [34])) with (34 :: rev (34 :: f_value f)) by (cbn [rev]; rewrite rev_app_distr; reflexivity).
    cbn [N.eqb Pos.eqb andb]. destruct (f_value f ++ [34]) eqn:E; [destruct (f_value f); discriminate|]. rewrite <- E. now rewrite removelast_last.
  - unfold unquote. destruct (f_value f) as [|c r]; [reflexivity|]. apply mem_cons_false in Hv as [A _]. destruct (c =? 34) eqn:E; [lia|]. reflexivity.
Qed.
Definition put_all (fs : list field) (m : list (str * str)) : list (str * str) := fold_left (fun m f => insert str_eqb (f_name f) (f_value f) m) fs m.
Lemma challenge_fields : forall fs count m, Forall field_ok fs -> count + llen fs <= MAX_AUTH_PARAMS -> challenge_params count (map render fs) m = Ret (Some (put_all fs m)).
Proof.
  induction fs as [|f fs IH]; intros count m Hf Hc; [reflexivity|]. inversion Hf as [|? ? H1 H2]; subst. rewrite llen_cons in Hc. cbn [map challenge_params]. replace (MAX_AUTH_PARAMS <=? count) with false by lia.
  rewrite param_render by assumption. rewrite unquote_render by assumption. rewrite IH; [reflexivity|assumption|lia].
Qed.
Lemma after_fields : forall fs f, field_ok f -> Forall field_ok fs ->
  after_digest (lit "Digest" ++ [32] ++ join sep (map render (f :: fs))) = Some (join sep (map render (f :: fs))).
Proof.
  intros fs f Hf Hfs. unfold after_digest. cbv zeta.
  assert (HA : Forall field_ok (f :: fs)) by now constructor.
  set (body := join sep (map render (f :: fs))) in *.
  assert (Eb : no_edge is_ws body /\ body <> []).
  { unfold body. clear body. revert f Hf HA. induction fs as [|g fs IH]; intros f Hf HA.
    - cbn [map join]. split; [now apply render_no_edge|now apply render_nonempty].
    - inversion Hfs as [|? ? Hg Hr]; subst. destruct (IH Hr g Hg Hfs) as [E1 E2]. replace (join sep (map render (f :: g :: fs))) with (render f ++ sep ++ join sep (map render (g :: fs))) by reflexivity.
      destruct (render_no_edge f Hf) as [R1 _]. pose proof (render_nonempty f Hf) as R2. split; [|destruct (render f); [easy|discriminate]]. split.
      + destruct (render f); [easy|]. exact R1.
      + rewrite app_assoc, rev_app_distr. destruct E1 as [_ E1]. destruct (rev (join sep (map render (g :: fs)))) as [|x y] eqn:Er; [|exact E1]. apply (f_equal (@rev N)) in Er. rewrite rev_involutive in Er. now destruct (E2 Er). }
  destruct Eb as [Eb1 Eb2].
  assert (T : trim (lit "Digest" ++ [32] ++ body) = lit "Digest" ++ [32] ++ body).
  { apply trim_by_id. split; [reflexivity|]. rewrite app_assoc, rev_app_distr. destruct Eb1 as [_ E]. destruct (rev body) as [|x y] eqn:Er; [|exact E]. apply (f_equal (@rev N)) in Er. rewrite rev_involutive in Er. now destruct (Eb2 Er). }
  rewrite T.
  assert (Lw : lower (lit "Digest" ++ [32] ++ body) = lit "digest" ++ 32 :: lower body) by (unfold lower; rewrite !map_app; reflexivity).
  assert (F : find_sub (lit "digest") (lower (lit "Digest" ++ [32] ++ body)) = Some ([], 32 :: lower body)).
  { rewrite Lw. cbn. reflexivity. }
  rewrite F. cbn [List.length Nat.add]. change (skipn 6 (lit "Digest" ++ [32] ++ body)) with (32 :: body).
  assert (S : trim_start (32 :: body) = body).
  { unfold trim_start, trim_start_by. cbn [drop_while]. replace (is_ws 32) with true by reflexivity. apply drop_while_id, Eb1. }
  now rewrite S.
Qed.
Lemma parse_fields : forall fs f, field_ok f -> Forall field_ok fs -> llen (f :: fs) <= MAX_AUTH_PARAMS ->
  parse_challenge (lit "Digest" ++ [32] ++ join sep (map render (f :: fs))) = Ret (Some (put_all (f :: fs) [])).
Proof.
  intros fs f Hf Hfs Hl. unfold parse_challenge. rewrite after_fields by assumption.
  unfold split_auth_params. rewrite commas_fields by (assumption || now left). apply challenge_fields; [now constructor|lia].
Qed.
(** the challenge of our own authenticator *)
Definition challenge_of (a : auth) (tok : str) (stale : bool) : list field :=
  mkF true (lit "realm") (au_realm a) :: mkF true (lit "nonce") tok
  :: mkF false (lit "algorithm") (alg_str (au_alg a)) :: mkF true (lit "qop") (qop_str (au_qop a))
  :: mkF true (lit "opaque") (au_opaque a) :: (if stale then [mkF false (lit "stale") (lit "true")] else []).
Lemma challenge_text : forall a tok t0 stale, snd (challenge a tok t0 stale) = lit "Digest" ++ [32] ++ join sep (map render (challenge_of a tok stale)).
Proof.
  intros a tok t0 stale. unfold challenge, challenge_value, challenge_of. cbn [snd].
  generalize (au_realm a) (alg_str (au_alg a)) (qop_str (au_qop a)) (au_opaque a). intros s1 s2 s3 s4.
  destruct stale; cbn [map join]; unfold render, sep; cbn [f_quoted f_name f_value]; rewrite ?app_nil_r, <- ?app_assoc; reflexivity.
Qed.
Definition any_hash (f : hash_fn) (b : list N) : str := [].
Lemma challenge_ok : forall a tok stale, quotable 256 (au_realm a) -> quotable 128 tok -> quotable 256 (au_opaque a) -> Forall field_ok (challenge_of a tok stale).
Proof.
  intros a tok stale Q1 Q2 Q3.
  assert (P : forall n v mx, quotable mx v -> (match n with [] => false | _ => true end)
      && forallb (fun c => negb (is_ws c || (c =? 34) || (c =? 44) || (c =? 61))) n && str_eqb (lower n) n = true -> field_ok (mkF true n v)).
  { intros n v mx Hv Hn. apply (quoted_ok n v mx); [now apply name_plain_dec|assumption]. }
  unfold challenge_of. apply Forall_cons; [now apply (P _ _ 256)|]. apply Forall_cons; [now apply (P _ _ 128)|].
  apply Forall_cons. { apply (AuthProofs.plain_ok any_hash); [apply name_plain_dec; reflexivity|]. destruct (au_alg a) as [[] []]; reflexivity. }
  apply Forall_cons. { apply (P _ _ 256); [|reflexivity]. destruct (au_qop a); repeat split; vm_compute; congruence. }
  apply Forall_cons; [now apply (P _ _ 256)|].
  destruct stale; [|apply Forall_nil]. apply Forall_cons; [|apply Forall_nil]. apply (AuthProofs.plain_ok any_hash); [apply name_plain_dec; reflexivity|reflexivity].
Qed.
Lemma challenge_read : forall a tok t0 stale, quotable 256 (au_realm a) -> quotable 128 tok -> quotable 256 (au_opaque a) ->
  exists m, parse_challenge (snd (challenge a tok t0 stale)) = Ret (Some m)
    /\ lookup str_eqb (lit "realm") m = Some (au_realm a) /\ lookup str_eqb (lit "nonce") m = Some tok
    /\ lookup str_eqb (lit "opaque") m = Some (au_opaque a) /\ choose_alg m = au_alg a /\ choose_qop m = Some (au_qop a).
Proof.
  intros a tok t0 stale Q1 Q2 Q3. rewrite challenge_text. pose proof (challenge_ok a tok stale Q1 Q2 Q3) as HF. unfold challenge_of in *. inversion HF as [|? ? F1 F2]; subst.
  rewrite parse_fields; [|assumption|assumption|destruct stale; vm_compute; discriminate].
  eexists. split; [reflexivity|]. unfold put_all, choose_alg, choose_qop. destruct stale; cbn [fold_left f_name f_value].
  all: split; [reflexivity|]; split; [reflexivity|]; split; [reflexivity|]; split;
    [match goal with |- context [lookup str_eqb (lit "algorithm") ?m] => assert (E : lookup str_eqb (lit "algorithm") m = Some (alg_str (au_alg a))) by reflexivity; rewrite E; destruct (au_alg a) as [[] []]; reflexivity end|].
  all: match goal with |- context [lookup str_eqb (lit "qop") ?m] => assert (E : lookup str_eqb (lit "qop") m = Some (qop_str (au_qop a))) by reflexivity; rewrite E; destruct (au_qop a); reflexivity end.
Qed.
Lemma realm_read : forall a tok t0 stale rs, quotable 256 (au_realm a) -> quotable 128 tok -> quotable 256 (au_opaque a) ->
  (hget (lit "WWW-Authenticate") (p_headers rs) = Some (snd (challenge a tok t0 stale))
   \/ (hget (lit "WWW-Authenticate") (p_headers rs) = None /\ hget (lit "Proxy-Authenticate") (p_headers rs) = Some (snd (challenge a tok t0 stale)))) ->
  extract_realm rs = Ret (Some (au_realm a)).
Proof.
  intros a tok t0 stale rs Q1 Q2 Q3 Hc. pose proof (challenge_ok a tok stale Q1 Q2 Q3) as HF. rewrite challenge_text in Hc. unfold challenge_of in *. inversion HF as [|? ? F1 F2]; subst.
  assert (E : extract_realm rs = match after_digest (lit "Digest" ++ [32] ++ join sep (map render (challenge_of a tok stale))) with None => Ret None | Some ps => find_realm (split_auth_params ps) end).
  { unfold extract_realm. destruct Hc as [-> | [-> ->]]; reflexivity. }
  rewrite E. unfold challenge_of. rewrite after_fields by assumption. unfold split_auth_params. rewrite commas_fields by (assumption || now left).
  cbn [map find_realm]. rewrite param_render by assumption. cbn [f_name]. replace (eq_ic (lit "realm") (lit "realm")) with true by reflexivity. rewrite unquote_render by assumption. reflexivity.
Qed.

(** ** The repeated request *)
Lemma eq_ic_sym : forall a b, eq_ic a b = eq_ic b a.
Proof.
  intros a b. unfold eq_ic. destruct (str_eqb (lower a) (lower b)) eqn:E.
  - apply str_eqb_spec in E. rewrite E. symmetry. apply str_eqb_refl.
  - destruct (str_eqb (lower b) (lower a)) eqn:F; [|reflexivity]. apply str_eqb_spec in F. rewrite F in E. now rewrite str_eqb_refl in E.
Qed.
Lemma eq_ic_refl : forall a, eq_ic a a = true.
Proof. intros a. unfold eq_ic. apply str_eqb_refl. Qed.
Section Retry.
  Variable b : str.
  (** one header of the copy *)
  Definition copied (h h' : str * str) : Prop :=
    fst h' = fst h /\ ((fst h = lit "Via" /\ snd h' = replace_branch (snd h) b)
      \/ (fst h = lit "CSeq" /\ (snd h' = snd h \/ exists num k m, split_once 32 (snd h) = Some (num, m) /\ parse_uint u32_max num = Some k /\ snd h' = print_N (k + 1) ++ lit " " ++ m))
      \/ (fst h <> lit "Via" /\ fst h <> lit "CSeq" /\ snd h' = snd h)).
  Lemma retry_copied : forall hs done l, retry_headers b done hs = Ret l -> Forall2 copied hs l.
  Proof.
    induction hs as [|[n v] hs IH]; intros done l H; [injection H as <-; constructor|]. cbn [retry_headers] in H. cbv zeta in H.
    assert (G : forall d x, match retry_headers b d hs with Ret l => Ret (x :: l) | Panics => Panics end = Ret l -> copied (n, v) x -> Forall2 copied ((n, v) :: hs) l).
    { intros d x Hx Hc. destruct (retry_headers b d hs) as [l0|] eqn:E; [|discriminate]. injection Hx as <-. constructor; [exact Hc|]. now apply (IH d). }
    destruct (str_eqb n (lit "Via")) eqn:E1.
    { apply str_eqb_spec in E1. subst n. apply (G _ _ H). split; [reflexivity|]. left. now split. }
    assert (N1 : n <> lit "Via") by (intros ->; now rewrite str_eqb_refl in E1).
    destruct (str_eqb n (lit "CSeq")) eqn:E2; cbn [andb] in H.
    - apply str_eqb_spec in E2. subst n. destruct (negb done); [|apply (G _ _ H); split; [reflexivity|]; right; left; split; [reflexivity|now left]].
      destruct (split_once 32 v) as [[num m]|] eqn:Es; [|apply (G _ _ H); split; [reflexivity|]; right; left; split; [reflexivity|now left]].
      destruct (parse_uint u32_max num) as [k|] eqn:Ep; [|apply (G _ _ H); split; [reflexivity|]; right; left; split; [reflexivity|now left]].
      destruct (u32_max <=? k); [discriminate|]. apply (G _ _ H). split; [reflexivity|]. right. left. split; [reflexivity|]. right. exists num, k, m. cbn [snd]. repeat split; assumption.
    - assert (N2 : n <> lit "CSeq") by (intros ->; now rewrite str_eqb_refl in E2). apply (G _ _ H). split; [reflexivity|]. right. right. repeat split; assumption.
  Qed.
  Lemma retry_other : forall hs done l n, retry_headers b done hs = Ret l -> eq_ic (lit "Via") n = false -> eq_ic (lit "CSeq") n = false -> hget_all n l = hget_all n hs.
  Proof.
    intros hs done l n H H1 H2. apply retry_copied in H. induction H as [|[k v] [k' v'] hs l C F IH]; [reflexivity|]. destruct C as (E & C). cbn [fst snd] in *. subst k'. rewrite !get_all_cons, IH.
    destruct (eq_ic k n) eqn:Ek; [|reflexivity]. destruct C as [[-> _]|[[-> _]|(_ & _ & ->)]]; [congruence|congruence|reflexivity].
  Qed.
  Lemma retry_via : forall hs done l, retry_headers b done hs = Ret l -> (forall n v, In (n, v) hs -> eq_ic n (lit "Via") = true -> n = lit "Via") ->
    hget_all (lit "Via") l = map (fun v => replace_branch v b) (hget_all (lit "Via") hs).
  Proof.
    intros hs done l H Hc. apply retry_copied in H. induction H as [|[k v] [k' v'] hs l C F IH]; [reflexivity|]. destruct C as (E & C). cbn [fst snd] in *. subst k'. rewrite !get_all_cons, IH by (intros n w Hw; apply (Hc n w); now right).
    destruct (eq_ic k (lit "Via")) eqn:Ek; [|reflexivity]. assert (Hk := Hc k v (or_introl eq_refl) Ek). subst k. destruct C as [[_ ->]|[[C _]|(C & _)]]; [reflexivity|discriminate C|now destruct C].
  Qed.
  Lemma retry_cseq : forall hs l k m, retry_headers b false hs = Ret l -> (forall n v, In (n, v) hs -> eq_ic n (lit "CSeq") = true -> n = lit "CSeq") ->
    hget_all (lit "CSeq") hs = [print_N k ++ lit " " ++ m] -> k <= 4294967295 -> hget_all (lit "CSeq") l = [print_N (k + 1) ++ lit " " ++ m] /\ k < 4294967295.
  Proof.
    induction hs as [|[n v] hs IH]; intros l k m H Hc Ho Hk; [discriminate|]. cbn [retry_headers] in H. cbv zeta in H. rewrite get_all_cons in Ho.
    destruct (eq_ic n (lit "CSeq")) eqn:E.
    - assert (En := Hc n v (or_introl eq_refl) E). subst n. replace (str_eqb (lit "CSeq") (lit "Via")) with false in H by reflexivity. replace (str_eqb (lit "CSeq") (lit "CSeq")) with true in H by reflexivity. cbn [andb negb] in H.
      injection Ho as -> Hr. change (print_N k ++ lit " " ++ m) with (print_N k ++ 32 :: m) in H. rewrite split_once_app in H.
      2: { apply mem_false. intros X. apply print_N_digits in X. lia. }
      rewrite (parse_uint_print u32_max k) in H by exact Hk. destruct (u32_max <=? k) eqn:El; [discriminate|]. destruct (retry_headers b true hs) as [l0|] eqn:Er; [|discriminate]. injection H as <-. split; [|unfold u32_max in El; lia].
      rewrite get_all_cons. replace (eq_ic (lit "CSeq") (lit "CSeq")) with true by reflexivity. f_equal.
      assert (X : hget_all (lit "CSeq") l0 = hget_all (lit "CSeq") hs); [|now rewrite X].
      assert (Z : forall w, In (lit "CSeq", w) hs -> False).
      { intros w Hw. clear - Hw Hr. induction hs as [|[a c] hs IH]; [destruct Hw|]. rewrite get_all_cons in Hr. destruct Hw as [[= -> ->]|Hw]; [discriminate Hr|]. destruct (eq_ic a (lit "CSeq")); [discriminate Hr|]. now apply IH. }
      apply retry_copied in Er. clear - Er Z. induction Er as [|[a c] [a' c'] hs l C F IH]; [reflexivity|]. destruct C as (Ea & C). cbn [fst snd] in *. subst a'. rewrite !get_all_cons, IH by (intros w Hw; apply (Z w); now right).
      destruct (eq_ic a (lit "CSeq")) eqn:Ea; [|reflexivity]. destruct C as [[-> _]|[[-> _]|(_ & _ & ->)]]; [discriminate Ea| |reflexivity]. destruct (Z c). now left.
    - assert (Hc' : forall n v, In (n, v) hs -> eq_ic n (lit "CSeq") = true -> n = lit "CSeq") by (intros a c Ha; apply (Hc a c); now right).
      assert (N : str_eqb n (lit "CSeq") = false). { destruct (str_eqb n (lit "CSeq")) eqn:X; [|reflexivity]. apply str_eqb_spec in X. subst n. discriminate E. }
      rewrite N in H. cbn [andb] in H. destruct (retry_headers b false hs) as [l0|] eqn:Er; [|destruct (str_eqb n (lit "Via")); discriminate].
      destruct (IH l0 k m eq_refl Hc' Ho Hk) as [I1 I2]. split; [|exact I2]. destruct (str_eqb n (lit "Via")) eqn:Ev; injection H as <-; rewrite get_all_cons; [exact I1|]. rewrite E. exact I1.
  Qed.
End Retry.
(** the branch of a Via is exchanged and nothing else *)
Lemma branch_swapped : forall base before b0 after b, trim base = base -> ~ In 59 base -> ~ In 59 b0 -> trim (lit "branch=" ++ b0) = lit "branch=" ++ b0 ->
  Forall piece before -> Forall piece after -> (forall p, In p (before ++ after) -> is_branch p = false) ->
  replace_branch (via_with base before b0 after) b = via_with base before b after.
Proof.
  intros base before b0 after b Tb Hb Hb0 Tb0 Pb Pa Nb. unfold replace_branch, via_with.
  assert (S : forall ps x, ~ In 59 x -> Forall (fun p => ~ In 59 p) ps -> split_on 59 (x ++ flat_map (fun p => 59 :: p) ps) = x :: ps).
  { induction ps as [|p ps IH]; intros x Hx Hp; cbn [flat_map]; [rewrite app_nil_r; apply split_on_nomem; now apply mem_false|]. inversion Hp; subst. change ((59 :: p) ++ flat_map (fun p => 59 :: p) ps) with (59 :: (p ++ flat_map (fun p => 59 :: p) ps)). rewrite split_on_app by now apply mem_false. now rewrite IH. }
  rewrite S; [|assumption|].
  2: { apply Forall_app. split; [eapply Forall_impl; [|exact Pb]; now intros p (_ & _ & X)|]. constructor; [|eapply Forall_impl; [|exact Pa]; now intros p (_ & _ & X)].
       intros X. apply in_app_or in X as [X|X]; [|contradiction]. cbn in X. repeat (destruct X as [X|X]; [discriminate X|]). exact X. }
  set (g := fun p => let t := trim p in if starts_with (lit "branch=") (lower t) then [lit "branch=" ++ b] else match t with [] => [] | _ => [t] end).
  assert (Gp : forall ps, Forall piece ps -> (forall p, In p ps -> is_branch p = false) -> flat_map g ps = ps).
  { induction ps as [|p ps IH]; intros Hp Hn; [reflexivity|]. inversion Hp as [|? ? (P1 & P2 & P3) Hr]; subst. cbn [flat_map]. rewrite IH by (assumption || (intros x Hx; apply Hn; now right)). unfold g. cbv zeta. rewrite P2.
    specialize (Hn p (or_introl eq_refl)). unfold is_branch in Hn. rewrite Hn. destruct p; [easy|reflexivity]. }
  assert (Br : starts_with (lit "branch=") (lower (lit "branch=" ++ b0)) = true) by (unfold lower; rewrite map_app; reflexivity).
  assert (R : rebranched b (before ++ [lit "branch=" ++ b0] ++ after) = before ++ [lit "branch=" ++ b] ++ after).
  { set (ps := before ++ [lit "branch=" ++ b0] ++ after). change (rebranched b ps) with (if existsb (fun p => starts_with (lit "branch=") (lower (trim p))) ps then flat_map g ps else flat_map g ps ++ [lit "branch=" ++ b]). subst ps.
    replace (existsb (fun p => starts_with (lit "branch=") (lower (trim p))) (before ++ [lit "branch=" ++ b0] ++ after)) with true.
    2: { symmetry. apply existsb_exists. exists (lit "branch=" ++ b0). split; [apply in_or_app; right; now left|]. now rewrite Tb0. }
    assert (Gm : flat_map g [lit "branch=" ++ b0] = [lit "branch=" ++ b]) by (unfold g; cbn [flat_map]; cbv zeta; now rewrite Tb0, Br).
    assert (E1 : flat_map g before = before) by (apply Gp; [assumption|intros p Hp; apply Nb, in_or_app; now left]). assert (E2 : flat_map g after = after) by (apply Gp; [assumption|intros p Hp; apply Nb, in_or_app; now right]).
    transitivity (flat_map g before ++ (flat_map g [lit "branch=" ++ b0] ++ flat_map g after)); [exact (eq_trans (flat_map_app g before _) (f_equal (fun x => flat_map g before ++ x) (flat_map_app g [lit "branch=" ++ b0] after)))|]. rewrite Gm, E1, E2. reflexivity. }
  rewrite R, Tb. assert (J : forall ps x, lit ";" ++ join (lit ";") (x :: ps) = flat_map (fun p => 59 :: p) (x :: ps)).
  { induction ps as [|p ps IH]; intros x; [cbn; now rewrite app_nil_r|]. exact (f_equal (fun z => 59 :: x ++ z) (IH p)). }
  destruct (before ++ [lit "branch=" ++ b] ++ after) as [|x ps] eqn:E; [destruct before; discriminate|]. now rewrite J.
Qed.

Lemma answer_inv : forall H cl f cnonce rq rs cl' rq', answer H cl f cnonce rq rs = (cl', Ret (Some rq')) ->
  exists m realm nonce l value,
    parse_challenge (match hget (if p_code rs =? 407 then lit "Proxy-Authenticate" else lit "WWW-Authenticate") (p_headers rs) with Some v => v | None => [] end) = Ret (Some m)
    /\ hget (if p_code rs =? 407 then lit "Proxy-Authenticate" else lit "WWW-Authenticate") (p_headers rs) <> None
    /\ lookup str_eqb (lit "realm") m = Some realm /\ lookup str_eqb (lit "nonce") m = Some nonce
    /\ generate H cl (q_method rq) (uri_text (q_uri rq)) realm nonce (choose_alg m) (choose_qop m) (lookup str_eqb (lit "opaque") m) (q_body rq) cnonce = (cl', value)
    /\ retry_headers (branch_of f) false (q_headers rq) = Ret l
    /\ rq' = mkReq (q_method rq) (q_uri rq) (l ++ [(if p_code rs =? 407 then lit "Proxy-Authorization" else lit "Authorization", value)]) (q_body rq).
Proof.
  intros H cl f cnonce rq rs cl' rq' A. unfold answer in A. cbv zeta in A.
  destruct (hget _ (p_headers rs)) as [v|] eqn:Eh; [|discriminate]. destruct (parse_challenge v) as [[m|]|] eqn:Ec; try discriminate.
  destruct (lookup str_eqb (lit "realm") m) as [realm|] eqn:E1; [|discriminate]. destruct (lookup str_eqb (lit "nonce") m) as [nonce|] eqn:E2; [|discriminate].
  destruct (generate _ _ _ _ _ _ _ _ _ _ _) as [c0 value] eqn:Eg. injection A as -> A. destruct (retry_headers (branch_of f) false (q_headers rq)) as [l|] eqn:El; [|discriminate].
  destruct (push_all [] _) as [hs|] eqn:Ep; [|discriminate]. apply push_all_eq in Ep. cbn [app] in Ep. subst hs. unfold request_new in A. destruct (MAX_BODY_SIZE <? llen (q_body rq)); [discriminate|]. injection A as <-.
  exists m, realm, nonce, l, value. repeat split; try assumption; discriminate.
Qed.
(** an Authorization never was there, so the new one is the one that is read *)
Lemma get_last : forall n m hs v, hget_all n hs = [] -> eq_ic m n = true -> hget n (hs ++ [(m, v)]) = Some v.
Proof.
  intros n m hs v E1 E2. apply (get_head n _ v []). rewrite get_all_app, E1, get_all_cons, E2. reflexivity.
Qed.
