(** Proofs about caller identity. *)
From Coq Require Import ZArith NArith Bool String List Lia ZifyBool ZifyN ZifyNat.
Import ListNotations.
From Verif Require Import Base BaseFacts NumFacts Text TextFacts Utf8Facts Json Identity IdentitySpec JsonProofs.
Open Scope N_scope.
Open Scope list_scope.

(** ** What is written is JSON *)
Definition unit_of (c : N) : junit :=
  if (c <? 32) && negb ((c =? 8) || (c =? 12) || (c =? 10) || (c =? 13) || (c =? 9)) then JU c else JB c.
Lemma hex_digit_val : forall n, n < 16 -> hex_val (hex_digit n) = Some n.
Proof.
  intros n H. unfold hex_digit, hex_val, is_digit, in_range. destruct (n <? 10) eqn:E.
  - replace ((48 <=? n + 48) && (n + 48 <=? 57)) with true by lia. f_equal. lia.
  - replace ((48 <=? n + 87) && (n + 87 <=? 57)) with false by lia. replace ((97 <=? n + 87) && (n + 87 <=? 102)) with true by lia. f_equal. lia.
Qed.
Lemma esc_jchars : forall b u t, jchars u t -> jchars (map unit_of b ++ u) (flat_map esc_byte b ++ t).
Proof.
  intros b u t H. induction b as [|c b IH]; [assumption|]. cbn [map flat_map app]. rewrite <- app_assoc. set (t' := flat_map esc_byte b ++ t) in *. unfold esc_byte, unit_of.
  destruct (c =? 34) eqn:E1; [apply N.eqb_eq in E1; subst; apply (C_esc 34 34); [cbn; tauto|assumption]|].
  destruct (c =? 92) eqn:E2; [apply N.eqb_eq in E2; subst; apply (C_esc 92 92); [cbn; tauto|assumption]|].
  destruct (c =? 8) eqn:E3; [apply N.eqb_eq in E3; subst; apply (C_esc 98 8); [cbn; tauto|assumption]|].
  destruct (c =? 12) eqn:E4; [apply N.eqb_eq in E4; subst; apply (C_esc 102 12); [cbn; tauto|assumption]|].
  destruct (c =? 10) eqn:E5; [apply N.eqb_eq in E5; subst; apply (C_esc 110 10); [cbn; tauto|assumption]|].
  destruct (c =? 13) eqn:E6; [apply N.eqb_eq in E6; subst; apply (C_esc 114 13); [cbn; tauto|assumption]|].
  destruct (c =? 9) eqn:E7; [apply N.eqb_eq in E7; subst; apply (C_esc 116 9); [cbn; tauto|assumption]|].
  destruct (c <? 32) eqn:E8; cbn [orb negb andb].
  - change ((lit "\u00" ++ [hex_digit (c / 16); hex_digit (c mod 16)]) ++ t') with (92 :: 117 :: 48 :: 48 :: hex_digit (c / 16) :: hex_digit (c mod 16) :: t').
    replace c with (0 * 4096 + 0 * 256 + c / 16 * 16 + c mod 16) at 1 by (clear; euc).
    apply C_hex; try reflexivity; try assumption; apply hex_digit_val; clear - E8; euc.
  - apply C_raw; [lia|lia|lia|assumption].
Qed.
Lemma esc_units_bytes : forall b, unit_bytes (map unit_of b) = Some b.
Proof.
  induction b as [|c b IH]; [reflexivity|]. cbn [map]. unfold unit_of at 1. destruct ((c <? 32) && _) eqn:E.
  - cbn [unit_bytes]. replace (is_high c) with false by (unfold is_high, in_range; lia). replace (is_low c) with false by (unfold is_low, in_range; lia). rewrite IH.
    unfold utf8_c. replace (c <? 128) with true by lia. reflexivity.
  - cbn [unit_bytes]. now rewrite IH.
Qed.
Definition sunits (s : str) : list junit := map unit_of (utf8 s).
Lemma sunits_text : forall s, is_str s = true -> json_text (sunits s) = Some s.
Proof. intros s H. unfold json_text, sunits. rewrite esc_units_bytes. cbn [obind]. now apply from_utf8_utf8. Qed.
Lemma put_string_text : forall s, jtext (JStr (sunits s)) (put_string s).
Proof. intros s. unfold put_string. constructor. pose proof (esc_jchars (utf8 s) [] [] C_nil) as H. now rewrite !app_nil_r in H. Qed.
Lemma put_string_chars : forall s, exists t, put_string s = 34 :: t ++ [34] /\ jchars (sunits s) t.
Proof. intros s. eexists. split; [reflexivity|]. pose proof (esc_jchars (utf8 s) [] [] C_nil) as H. now rewrite !app_nil_r in H. Qed.
Lemma blanks_nil : blanks []. Proof. constructor. Qed.
Local Hint Resolve blanks_nil : core.
Lemma put_array_text : forall vs ts, Forall2 jtext vs ts -> jtext (JArr vs) (put_array ts).
Proof.
  intros vs ts H. destruct H as [|v t vs ts Hv H]; [now apply (T_arr0 [])|]. unfold put_array. constructor. revert v t Hv. induction H as [|v' t' vs ts Hv' H IH]; intros v t Hv.
  - cbn [join]. pose proof (L_one v [] t [] blanks_nil Hv blanks_nil) as X. now rewrite app_nil_r in X.
  - change (join [44] (t :: t' :: ts)) with (t ++ [44] ++ join [44] (t' :: ts)). cbn [app]. apply (L_more v (v' :: vs) [] t []); auto.
Qed.
Lemma put_members_text : forall ks vs ts, Forall2 jtext vs ts -> length ks = length vs ->
  jtext (JObj (combine (map sunits ks) vs)) (put_members (combine ks ts)).
Proof.
  intros ks vs ts H L. unfold put_members. destruct H as [|v t vs ts Hv H].
  - destruct ks; [|discriminate]. now apply (T_obj0 []).
  - constructor. revert ks v t Hv L. induction H as [|v' t' vs ts Hv' H IH]; intros [|k ks] v t Hv L; try discriminate; destruct (put_string_chars k) as (kt & Ek & Hk).
    + destruct ks; [|discriminate]. cbn [map combine join fst snd]. rewrite Ek. pose proof (P_one (sunits k) v [] kt [] [] t [] blanks_nil Hk blanks_nil blanks_nil Hv blanks_nil) as X.
      rewrite app_nil_r in X. cbn [app] in *. rewrite <- app_assoc. exact X.
    + destruct ks as [|k' ks]; [discriminate|]. cbn [map combine]. cbn [fst snd].
      change (join [44] ((put_string k ++ 58 :: t) :: (put_string k' ++ 58 :: t') :: map (fun p => put_string (fst p) ++ 58 :: snd p) (combine ks ts)))
        with ((put_string k ++ 58 :: t) ++ [44] ++ join [44] ((put_string k' ++ 58 :: t') :: map (fun p => put_string (fst p) ++ 58 :: snd p) (combine ks ts))).
      specialize (IH (k' :: ks) v' t' Hv' ltac:(cbn [length] in *; lia)). cbn [map combine fst snd] in IH.
      pose proof (P_more (sunits k) v _ [] kt [] [] t [] _ blanks_nil Hk blanks_nil blanks_nil Hv blanks_nil IH) as X. rewrite Ek. cbn [app] in *. rewrite <- !app_assoc. cbn [app] in *. exact X.
Qed.
Lemma print_fuel_head : forall f n, n < 2 ^ N.of_nat f -> f <> O -> n <> 0 -> exists d r, print_fuel f n = d :: r /\ d <> 48.
Proof.
  induction f as [|f IH]; intros n Hn Hf Hz; [congruence|]. cbn [print_fuel]. destruct (n <? 10) eqn:E.
  - exists (48 + n), []. split; [reflexivity|lia].
  - rewrite Nat2N.inj_succ, N.pow_succ_r' in Hn. destruct f as [|f]; [cbn in Hn; lia|].
    destruct (IH (n / 10)) as (d & r & E1 & E2); [clear - Hn; set (k := 2 ^ N.of_nat (S f)) in *; euc|congruence|clear - E; euc|]. rewrite E1. cbn [app]. eauto.
Qed.
Lemma print_N_head : forall n, hd 0 (print_N n) = 48 -> print_N n = [48].
Proof.
  intros n H. destruct (N.eq_dec n 0) as [->|Hn]; [reflexivity|]. unfold print_N in *. destruct (print_fuel_head _ n (size_nat_bound n) ltac:(discriminate) Hn) as (d & r & E & K).
  rewrite E in H. cbn in H. congruence.
Qed.
Lemma put_i64_text : forall z, jtext (JNum (z <? 0)%Z (print_N (Z.abs_N z)) false) (put_i64 z).
Proof.
  intros z. constructor. exists [], []. unfold put_i64. rewrite !app_nil_r. split; [reflexivity|]. split; [|split; [|split; [now left|split; [now left|tauto]]]].
  - split; [apply print_N_nonempty|]. rewrite Forall_forall. intros c. apply print_N_digits.
  - apply print_N_head.
Qed.
Lemma as_i64_put : forall z, (-9223372036854775808 <= z <= 9223372036854775807)%Z -> as_i64 (JNum (z <? 0)%Z (print_N (Z.abs_N z)) false) = Some z.
Proof.
  intros z H. unfold as_i64. destruct (print_N_spec (Z.abs_N z)) as (-> & _). destruct (z <? 0)%Z eqn:E.
  - replace ((Z.abs_N z =? 0) || (9223372036854775808 <? Z.abs_N z)) with false by lia. f_equal. lia.
  - replace (9223372036854775807 <? Z.abs_N z) with false by lia. f_equal. lia.
Qed.

(** ** Signing, then decoding *)
Lemma document_of : forall v t, jtext v t -> json_parse t = Some v.
Proof. intros v t H. apply json_parse_spec. exists [], t, []. rewrite app_nil_r. repeat split; auto. Qed.
Lemma header_json_reads : forall x, is_str x = true ->
  obind (json_parse (header_json x)) raw_header = Some (lit "ES256", Some (lit "passport"), Some (lit "shaken"), Some x).
Proof.
  intros x Hx. unfold header_json.
  rewrite (document_of (JObj (combine (map sunits [lit "alg"; lit "ppt"; lit "typ"; lit "x5u"]) [JStr (sunits (lit "ES256")); JStr (sunits (lit "shaken")); JStr (sunits (lit "passport")); JStr (sunits x)]))).
  - cbn [obind]. unfold raw_header. unfold fields. cbn [map combine named]. rewrite !sunits_text by reflexivity. cbn -[sunits json_text lit str_eqb]. 
    vm_compute (str_eqb _ _). cbn -[sunits json_text lit]. rewrite !sunits_text by (reflexivity || assumption). reflexivity.
  - apply (put_members_text [lit "alg"; lit "ppt"; lit "typ"; lit "x5u"] _ [put_string (lit "ES256"); put_string (lit "shaken"); put_string (lit "passport"); put_string x]); [|reflexivity].
    repeat (apply Forall2_cons; [apply put_string_text|]). constructor.
Qed.
Lemma strings_text : forall l, Forall2 jtext (map (fun s => JStr (sunits s)) l) (map put_string l).
Proof. induction l as [|s l IH]; cbn [map]; constructor; [apply put_string_text|assumption]. Qed.
Lemma all_strings_put : forall l, forallb is_str l = true -> all_strings (map (fun s => JStr (sunits s)) l) = Some l.
Proof. induction l as [|s l IH]; intros H; [reflexivity|]. cbn [forallb] in H. apply andb_prop in H as [H1 H2]. cbn [map all_strings as_string]. now rewrite sunits_text, IH. Qed.
Definition claims_doc (a : params) : json :=
  let dest := JObj (combine (map sunits [lit "tn"]) [JArr (map (fun s => JStr (sunits s)) (pr_dest a))]) in
  let orig := JObj (combine (map sunits [lit "tn"]) [JStr (sunits (pr_orig a))]) in
  let iat := JNum (pr_iat a <? 0)%Z (print_N (Z.abs_N (pr_iat a))) false in
  match pr_origid a with
  | Some g => JObj (combine (map sunits [lit "attest"; lit "dest"; lit "iat"; lit "orig"; lit "origid"]) [JStr (sunits (level_str (pr_attest a))); dest; iat; orig; JStr (sunits g)])
  | None => JObj (combine (map sunits [lit "attest"; lit "dest"; lit "iat"; lit "orig"]) [JStr (sunits (level_str (pr_attest a))); dest; iat; orig])
  end.
Lemma one_member_text : forall k v t, jtext v t -> jtext (JObj (combine (map sunits [k]) [v])) (put_members [(k, t)]).
Proof. intros k v t H. apply (put_members_text [k] [v] [t]); [|reflexivity]. now repeat constructor. Qed.
Lemma claims_doc_text : forall a, jtext (claims_doc a) (claims_json a).
Proof.
  intros a. unfold claims_doc, claims_json. cbv zeta.
  pose proof (one_member_text (lit "tn") _ _ (put_array_text _ _ (strings_text (pr_dest a)))) as D.
  pose proof (one_member_text (lit "tn") _ _ (put_string_text (pr_orig a))) as O.
  pose proof (put_i64_text (pr_iat a)) as I. pose proof (put_string_text (level_str (pr_attest a))) as A. destruct (pr_origid a) as [g|].
  - apply (put_members_text [lit "attest"; lit "dest"; lit "iat"; lit "orig"; lit "origid"] _
      [put_string (level_str (pr_attest a)); put_members [(lit "tn", put_array (map put_string (pr_dest a)))]; put_i64 (pr_iat a); put_members [(lit "tn", put_string (pr_orig a))]; put_string g]); [|reflexivity].
    constructor; [exact A|]. constructor; [exact D|]. constructor; [exact I|]. constructor; [exact O|]. constructor; [apply put_string_text|constructor].
  - apply (put_members_text [lit "attest"; lit "dest"; lit "iat"; lit "orig"] _
      [put_string (level_str (pr_attest a)); put_members [(lit "tn", put_array (map put_string (pr_dest a)))]; put_i64 (pr_iat a); put_members [(lit "tn", put_string (pr_orig a))]]); [|reflexivity].
    constructor; [exact A|]. constructor; [exact D|]. constructor; [exact I|]. constructor; [exact O|constructor].
Qed.
Definition params_ok (a : params) : Prop :=
  is_str (pr_x5u a) = true /\ is_str (pr_orig a) = true /\ forallb is_str (pr_dest a) = true
  /\ match pr_origid a with Some g => is_str g = true | None => True end
  /\ (-9223372036854775808 <= pr_iat a <= 9223372036854775807)%Z.
Lemma one_tn_obj : forall A (f : json -> option A) v x, v <> JNull -> f v = Some x -> one_tn f (JObj (combine (map sunits [lit "tn"]) [v])) = Some (Some x).
Proof.
  intros A f v x Hn H. unfold one_tn, fields. cbn [map combine named]. rewrite sunits_text by reflexivity. cbn -[lit str_eqb]. vm_compute (str_eqb _ _). cbn -[lit].
  unfold as_option. destruct v; try (now rewrite H). congruence.
Qed.
Lemma level_str_str : forall l, is_str (level_str l) = true.
Proof. now destruct l. Qed.
Lemma claims_doc_reads : forall a, params_ok a ->
  raw_claims (claims_doc a) = Some (Some (level_str (pr_attest a)), Some (Some (pr_orig a)), Some (Some (pr_dest a)), Some (pr_iat a), pr_origid a).
Proof.
  intros a (Hx & Ho & Hd & Hg & Hi). unfold claims_doc. cbv zeta.
  set (dest := JObj (combine (map sunits [lit "tn"]) [JArr (map (fun s => JStr (sunits s)) (pr_dest a))])).
  set (orig := JObj (combine (map sunits [lit "tn"]) [JStr (sunits (pr_orig a))])).
  assert (D : opt_field (one_tn as_strings) (Some dest) = Some (Some (Some (pr_dest a)))).
  { unfold opt_field. replace (as_option (one_tn as_strings) dest) with (match one_tn as_strings dest with Some x => Some (Some x) | None => None end) by reflexivity.
    unfold dest. rewrite (one_tn_obj _ as_strings _ (pr_dest a)); [reflexivity|discriminate|]. cbn [as_strings]. now apply all_strings_put. }
  assert (O : opt_field (one_tn as_string) (Some orig) = Some (Some (Some (pr_orig a)))).
  { unfold opt_field. replace (as_option (one_tn as_string) orig) with (match one_tn as_string orig with Some x => Some (Some x) | None => None end) by reflexivity.
    unfold orig. rewrite (one_tn_obj _ as_string _ (pr_orig a)); [reflexivity|discriminate|]. cbn [as_string]. now apply sunits_text. }
  assert (I : opt_field as_i64 (Some (JNum (pr_iat a <? 0)%Z (print_N (Z.abs_N (pr_iat a))) false)) = Some (Some (pr_iat a))).
  { unfold opt_field, as_option. now rewrite as_i64_put. }
  assert (A : opt_field as_string (Some (JStr (sunits (level_str (pr_attest a))))) = Some (Some (level_str (pr_attest a)))).
  { unfold opt_field, as_option, as_string. rewrite sunits_text by apply level_str_str. reflexivity. }
  destruct (pr_origid a) as [g|].
  - assert (G : opt_field as_string (Some (JStr (sunits g))) = Some (Some g)) by (unfold opt_field, as_option, as_string; now rewrite sunits_text).
    clearbody dest orig. unfold raw_claims, fields. cbn [map combine named]. rewrite !sunits_text by reflexivity. cbn -[lit str_eqb opt_field sunits print_N]. vm_compute (str_eqb _ _). cbn -[lit opt_field sunits print_N].
    rewrite A, O, D, I, G. reflexivity.
  - clearbody dest orig. unfold raw_claims, fields. cbn [map combine named]. rewrite !sunits_text by reflexivity. cbn -[lit str_eqb opt_field sunits print_N]. vm_compute (str_eqb _ _). cbn -[lit opt_field sunits print_N].
    rewrite A, O, D, I. reflexivity.
Qed.
Lemma utf8_bytes : forall s, is_str s = true -> is_bytes (utf8 s) = true.
Proof.
  intros s H. unfold is_bytes. apply forallb_forall. intros b Hb. unfold utf8 in Hb. apply in_flat_map in Hb as (c & Hc & Hb). unfold is_str in H. rewrite forallb_forall in H. apply H in Hc.
  apply N.ltb_lt. unfold is_scalar, in_range in Hc. unfold utf8_c in Hb. destruct (c <? 128) eqn:E1; [cbn in Hb; lia|]. destruct (c <? 2048) eqn:E2; [cbn [In] in Hb; clear H; euc|].
  destruct (c <? 65536) eqn:E3; [cbn [In] in Hb; clear H; euc|cbn [In] in Hb; clear H; euc].
Qed.
Lemma is_bytes_app : forall a b, is_bytes (a ++ b) = is_bytes a && is_bytes b.
Proof. intros. apply forallb_app. Qed.
Lemma esc_bytes : forall b, is_bytes b = true -> is_bytes (flat_map esc_byte b) = true.
Proof.
  induction b as [|c b IH]; intros H; [reflexivity|]. unfold is_bytes in *. cbn [forallb flat_map] in *. apply andb_prop in H as [H1 H2]. rewrite forallb_app, (IH H2), andb_true_r. unfold esc_byte.
  repeat match goal with |- context [if ?a =? ?b then _ else _] => destruct (a =? b); [reflexivity|] end. destruct (c <? 32) eqn:E; [|cbn; lia].
  change (forallb (fun c0 : N => c0 <? 256) (lit "\u00") && forallb (fun c0 : N => c0 <? 256) [hex_digit (c / 16); hex_digit (c mod 16)] = true) || rewrite forallb_app. cbn [forallb].
  replace (forallb (fun c0 : N => c0 <? 256) (lit "\u00")) with true by reflexivity. unfold hex_digit. destruct (c / 16 <? 10) eqn:E1; destruct (c mod 16 <? 10) eqn:E2; clear - E E1 E2; rewrite ?andb_true_l, ?andb_true_r; apply andb_true_intro; split; apply N.ltb_lt; euc.
Qed.
Lemma put_string_bytes : forall s, is_str s = true -> is_bytes (put_string s) = true.
Proof. intros s H. unfold put_string. change (is_bytes (flat_map esc_byte (utf8 s) ++ [34]) = true). rewrite is_bytes_app, esc_bytes by now apply utf8_bytes. reflexivity. Qed.
Lemma join_bytes : forall l, forallb is_bytes l = true -> is_bytes (join [44] l) = true.
Proof.
  induction l as [|a [|b l] IH]; intros H; [reflexivity|cbn in H; now rewrite andb_true_r in H|]. change (join [44] (a :: b :: l)) with (a ++ [44] ++ join [44] (b :: l)).
  cbn [forallb] in H. apply andb_prop in H as [H1 H2]. rewrite !is_bytes_app, H1. cbn [andb]. change (is_bytes [44]) with true. cbn [andb]. apply IH. exact H2.
Qed.
Lemma put_members_bytes : forall l, forallb (fun p => is_str (fst p) && is_bytes (snd p)) l = true -> is_bytes (put_members l) = true.
Proof.
  intros l H. unfold put_members. change (is_bytes (join [44] (map (fun p => put_string (fst p) ++ 58 :: snd p) l) ++ [125]) = true). rewrite is_bytes_app. rewrite join_bytes; [reflexivity|].
  induction l as [|[k t] l IH]; [reflexivity|]. cbn [forallb map fst snd] in *. apply andb_prop in H as [H1 H2]. apply andb_prop in H1 as [H0 H1]. rewrite (IH H2), andb_true_r, is_bytes_app, put_string_bytes by assumption. exact H1.
Qed.
Lemma header_json_bytes : forall x, is_str x = true -> is_bytes (header_json x) = true.
Proof. intros x H. apply put_members_bytes. cbn [forallb fst snd]. rewrite !put_string_bytes by (reflexivity || assumption). reflexivity. Qed.
Lemma claims_json_bytes : forall a, params_ok a -> is_bytes (claims_json a) = true.
Proof.
  intros a (Hx & Ho & Hd & Hg & Hi). apply put_members_bytes.
  assert (D : is_bytes (put_members [(lit "tn", put_array (map put_string (pr_dest a)))]) = true).
  { apply put_members_bytes. cbn [forallb fst snd]. rewrite andb_true_r. change (is_bytes (put_array (map put_string (pr_dest a))) = true). unfold put_array. change (is_bytes (join [44] (map put_string (pr_dest a)) ++ [93]) = true). rewrite is_bytes_app, join_bytes; [reflexivity|].
    clear - Hd. induction (pr_dest a) as [|s l IH]; [reflexivity|]. cbn [forallb map] in *. apply andb_prop in Hd as [H1 H2]. now rewrite put_string_bytes, IH. }
  assert (O : is_bytes (put_members [(lit "tn", put_string (pr_orig a))]) = true) by (apply put_members_bytes; cbn [forallb fst snd]; now rewrite put_string_bytes).
  assert (I : is_bytes (put_i64 (pr_iat a)) = true).
  { unfold put_i64. rewrite is_bytes_app. replace (is_bytes (if (pr_iat a <? 0)%Z then [45] else [])) with true by now destruct (pr_iat a <? 0)%Z. unfold is_bytes. apply forallb_forall. intros c Hc. apply print_N_digits in Hc. lia. }
  rewrite forallb_app. cbn [forallb fst snd]. rewrite D, O, I, put_string_bytes by apply level_str_str. destruct (pr_origid a) as [g|]; [|reflexivity]. cbn [forallb fst snd]. now rewrite put_string_bytes.
Qed.
Definition b64_char (c : N) : bool := is_some (b64_val c).
Lemma b64_enc_chars : forall b, is_bytes b = true -> forallb b64_char (b64_enc b) = true.
Proof.
  intros b. induction b as [|x|x y|x y z r IH] using b64_enc_ind; intros H; cbn [is_bytes forallb] in H; cbn [b64_enc forallb].
  - reflexivity.
  - unfold b64_char. rewrite !sym_val by (clear - H; euc). reflexivity.
  - unfold b64_char. rewrite !sym_val by (clear - H; euc). reflexivity.
  - apply andb_prop in H as [H1 H]. apply andb_prop in H as [H2 H]. apply andb_prop in H as [H3 H]. unfold b64_char at 1 2 3 4. rewrite !sym_val by (clear - H1 H2 H3; euc). cbn [is_some andb]. now apply IH.
Qed.
Lemma b64_char_facts : forall c, b64_char c = true -> c <> 46 /\ c <> 59 /\ is_ws c = false /\ c < 128.
Proof. intros c H. unfold b64_char, b64_val in H. unfold is_upper, is_lower, is_digit, in_range in H. unfold is_ws, in_range. repeat match type of H with context [if ?b then _ else _] => destruct b eqn:?; [lia|] end. discriminate. Qed.
Lemma b64_no : forall s c, forallb b64_char s = true -> c = 46 \/ c = 59 -> mem c s = false.
Proof. intros s c H Hc. apply mem_false. intros K. rewrite forallb_forall in H. apply H in K. apply b64_char_facts in K. intuition congruence. Qed.
Lemma b64_ascii : forall s, forallb b64_char s = true -> forallb is_ascii s = true.
Proof. intros s H. apply forallb_forall. intros c Hc. rewrite forallb_forall in H. apply H in Hc. apply b64_char_facts in Hc. unfold is_ascii. lia. Qed.
Lemma level_round : forall l, level_parse (level_str l) = Some l. Proof. now destruct l. Qed.
Lemma three_parts : forall p c s, mem 46 p = false -> mem 46 c = false -> mem 46 s = false -> split_on 46 (p ++ [46] ++ c ++ [46] ++ s) = [p; c; s].
Proof. intros p c s Hp Hc Hs. cbn [app]. rewrite split_on_app by assumption. f_equal. rewrite split_on_app by assumption. f_equal. now apply split_on_nomem. Qed.
Lemma sign_decode : forall a signer tok, params_ok a -> (forall m s, signer m = Some s -> is_bytes s = true) -> sign a signer = Ok tok ->
  exists p c sig, tok = p ++ [46] ++ c ++ [46] ++ b64_enc sig /\ signer (utf8 (p ++ [46] ++ c)) = Some sig /\ forallb b64_char p = true /\ forallb b64_char c = true /\ is_bytes sig = true /\
    decode tok = Ok (mkPassport (mkPHeader (lit "ES256") (Some (lit "passport")) (Some (lit "shaken")) (pr_x5u a))
                       (mkPClaims (Some (pr_attest a)) (Some (pr_orig a)) (pr_dest a) (Some (pr_iat a)) (pr_origid a)) (utf8 (p ++ [46] ++ c)) sig).
Proof.
  intros a signer tok Ha Hs H. unfold sign in H. destruct (length (pr_dest a) =? 0)%nat; [discriminate|]. destruct (length (pr_orig a) =? 0)%nat; [discriminate|]. cbv zeta in H.
  set (p := b64_enc (header_json (pr_x5u a))) in *. set (c := b64_enc (claims_json a)) in *. destruct (signer (utf8 (p ++ [46] ++ c))) as [sig|] eqn:Es; [|discriminate].
  assert (X : forall (x y : str), @Ok str sign_error x = Ok y -> x = y) by congruence. apply X in H. subst tok. clear X.
  pose proof (header_json_bytes (pr_x5u a) (proj1 Ha)) as Bh. pose proof (claims_json_bytes a Ha) as Bc. pose proof (Hs _ _ Es) as Bs.
  pose proof (b64_enc_chars _ Bh) as Ch. pose proof (b64_enc_chars _ Bc) as Cc. pose proof (b64_enc_chars _ Bs) as Cs.
  exists p, c, sig. split; [reflexivity|]. split; [exact Es|]. split; [exact Ch|]. split; [exact Cc|]. split; [exact Bs|]. unfold decode.
  rewrite three_parts by (apply b64_no; [assumption|now left]).
  unfold p, c. rewrite !b64_round by assumption. rewrite header_json_reads by apply Ha. rewrite (document_of _ _ (claims_doc_text a)). cbn [obind]. rewrite claims_doc_reads by assumption.
  rewrite level_round. reflexivity.
Qed.

(** ** Decoding against the specification *)
Lemma named_some : forall l m, named l = Some m -> (forall k x, In (k, x) l -> exists n, json_text k = Some n) /\
  forall n, values_of n m = map snd (filter (fun p => match json_text (fst p) with Some t => str_eqb n t | None => false end) l).
Proof.
  induction l as [|[k v] l IH]; intros m H; cbn [named] in H; [injection H as <-; split; [intros ? ? []|reflexivity]|].
  destruct (json_text k) as [t|] eqn:Et; [|discriminate]. destruct (named l) as [m'|]; [|discriminate]. injection H as <-. destruct (IH m' eq_refl) as [H1 H2]. split.
  - intros k' x [[= <- <-]|Hi]; [now exists t|now apply (H1 k' x)].
  - intros n. unfold values_of in *. cbn [filter fst]. rewrite Et. destruct (str_eqb n t); cbn [map snd]; now rewrite H2.
Qed.
Lemma named_ok : forall l, (forall k x, In (k, x) l -> exists n, json_text k = Some n) -> exists m, named l = Some m.
Proof.
  induction l as [|[k v] l IH]; intros H; [now exists []|]. cbn [named]. destruct (H k v (or_introl eq_refl)) as [n ->]. destruct IH as [m ->]; [intros k' x Hi; apply (H k' x); now right|]. eauto.
Qed.
Definition has_name (n : str) (p : list junit * json) : bool := match json_text (fst p) with Some t => str_eqb n t | None => false end.
Lemma has_name_true : forall n p, has_name n p = true <-> json_text (fst p) = Some n.
Proof. intros n p. unfold has_name. destruct (json_text (fst p)) as [t|]; [|split; discriminate]. rewrite str_eqb_spec. split; congruence. Qed.
Lemma filter_none : forall A (f : A -> bool) l, filter f l = [] <-> forall x, In x l -> f x = false.
Proof.
  intros A f l. induction l as [|a l IH]; [split; [intros _ x []|reflexivity]|]. cbn [filter]. destruct (f a) eqn:E.
  - split; [discriminate|]. intros H. specialize (H a (or_introl eq_refl)). congruence.
  - rewrite IH. split; [intros H x [<-|Hx]; [assumption|now apply H]|intros H x Hx; apply H; now right].
Qed.
Lemma filter_one : forall A (f : A -> bool) l x, filter f l = [x] <-> exists l1 l2, l = l1 ++ x :: l2 /\ f x = true /\ forall y, In y (l1 ++ l2) -> f y = false.
Proof.
  intros A f l x. split.
  - induction l as [|a l IH]; [discriminate|]. cbn [filter]. destruct (f a) eqn:E.
    + intros [= -> H]. exists [], l. split; [reflexivity|]. split; [assumption|]. cbn [app]. now apply filter_none.
    + intros H. destruct (IH H) as (l1 & l2 & -> & H1 & H2). exists (a :: l1), l2. split; [reflexivity|]. split; [assumption|]. intros y [<-|Hy]; [assumption|now apply H2].
  - intros (l1 & l2 & -> & H1 & H2). rewrite filter_app. cbn [filter]. rewrite H1. rewrite (proj2 (filter_none _ f l1)), (proj2 (filter_none _ f l2)); [reflexivity| |]; intros y Hy; apply H2; apply in_or_app; tauto.
Qed.
Lemma says_filter : forall l n o, (length (map snd (filter (has_name n) l)) <=? 1)%nat = true /\ hd_error (map snd (filter (has_name n) l)) = o <-> says l n o.
Proof.
  intros l n o. destruct o as [v|]; cbn [says]; split.
  - intros [L H]. destruct (filter (has_name n) l) as [|[k x] [|? ?]] eqn:E; try discriminate. cbn in H. injection H as ->. apply filter_one in E as (l1 & l2 & -> & H1 & H2).
    exists l1, k, l2. split; [reflexivity|]. apply has_name_true in H1. split; [exact H1|]. intros k' v' Hi K. apply H2 in Hi. apply (has_name_true n (k', v')) in K. congruence.
  - intros (l1 & k & l2 & -> & H1 & H2). assert (filter (has_name n) (l1 ++ (k, v) :: l2) = [(k, v)]) as ->; [|now split].
    apply filter_one. exists l1, l2. split; [reflexivity|]. split; [now apply has_name_true|]. intros [k' v'] Hi. destruct (has_name n (k', v')) eqn:E; [|reflexivity]. apply has_name_true in E. exfalso. now apply (H2 k' v').
  - intros [L H]. destruct (filter (has_name n) l) as [|[k x] ?] eqn:E; [|discriminate]. intros k v Hi K. apply (proj1 (filter_none _ _ _) E) in Hi. apply (has_name_true n (k, v)) in K. congruence.
  - intros H. assert (filter (has_name n) l = []) as ->; [|now split]. apply filter_none. intros [k v] Hi. destruct (has_name n (k, v)) eqn:E; [|reflexivity]. apply has_name_true in E. exfalso. now apply (H k v).
Qed.
Lemma fields_spec : forall names v os, fields names v = Some os <-> has_fields names v os.
Proof.
  intros names v os. destruct v as [|b|neg ds fl|u|l|l]; cbn [fields has_fields]; try (split; [discriminate|contradiction]).
  - split.
    + destruct (length l <=? length names)%nat eqn:E; [|discriminate]. intros [= <-]. split; [rewrite app_length, map_length, repeat_length; lia|eauto].
    + intros (L & k & ->). rewrite app_length, map_length, repeat_length in L. replace (length l <=? length names)%nat with true by lia. do 3 f_equal. lia.
  - split.
    + destruct (named l) as [m|] eqn:E; [|discriminate]. apply named_some in E as [K V]. intros H. split; [exact K|].
      destruct (forallb _ names) eqn:F; [|discriminate]. injection H as <-. clear K. induction names as [|n names IH]; cbn [map]; constructor.
      * cbn [forallb] in F. apply andb_prop in F as [F _]. rewrite V in *. apply says_filter. unfold has_name. now split.
      * apply IH. cbn [forallb] in F. now apply andb_prop in F.
    + intros [K F]. destruct (named_ok l K) as [m E]. rewrite E. apply named_some in E as [_ V].
      assert (X : forallb (fun n => (length (values_of n m) <=? 1)%nat) names = true /\ map (fun n => hd_error (values_of n m)) names = os).
      { induction F as [|n o names os H F [IH1 IH2]]; [now split|]. cbn [forallb map]. apply says_filter in H as [H1 H2]. rewrite V. unfold has_name in *. rewrite H1, H2, IH1, IH2. now split. }
      destruct X as [-> ->]. reflexivity.
Qed.
Lemma as_string_spec : forall v s, as_string v = Some s <-> text v s.
Proof. intros v s. unfold text. destruct v; cbn [as_string]; try (split; [discriminate|intros (u' & H & _); discriminate]). split; [eauto|now intros (u' & [= <-] & H)]. Qed.
Lemma all_strings_spec : forall l ss, all_strings l = Some ss <-> Forall2 text l ss.
Proof.
  induction l as [|v l IH]; intros ss; cbn [all_strings].
  - split; [intros [= <-]; constructor|now inversion 1].
  - split.
    + destruct (as_string v) as [s|] eqn:E; [|discriminate]. destruct (all_strings l) as [t|]; [|discriminate]. intros [= <-]. constructor; [now apply as_string_spec|now apply IH].
    + inversion 1 as [|? s ? t H1 H2]; subst. apply as_string_spec in H1. apply IH in H2. now rewrite H1, H2.
Qed.
Lemma as_strings_spec : forall v ss, as_strings v = Some ss <-> texts v ss.
Proof. intros v ss. unfold texts. destruct v; cbn [as_strings]; try (split; [discriminate|intros (u' & H & _); discriminate]). rewrite all_strings_spec. split; [eauto|now intros (u' & [= <-] & H)]. Qed.
Lemma as_i64_spec : forall v z, as_i64 v = Some z <-> whole v z.
Proof.
  intros v z. unfold whole. destruct v as [|b|neg ds fl|u|l|l]; cbn [as_i64]; try (split; [discriminate|intros (n & d & H & _); discriminate]).
  destruct fl; [split; [discriminate|intros (n & d & H & _); discriminate]|]. split.
  - intros H. exists neg, ds. split; [reflexivity|]. destruct neg.
    + destruct ((digits_value ds =? 0) || (9223372036854775808 <? digits_value ds)) eqn:E; [discriminate|]. injection H as <-. split; [reflexivity|]. lia.
    + destruct (9223372036854775807 <? digits_value ds) eqn:E; [discriminate|]. injection H as <-. split; [reflexivity|]. lia.
  - intros (n & d & [= <- <-] & -> & R & Z0). destruct neg.
    + specialize (Z0 eq_refl). replace ((digits_value ds =? 0) || (9223372036854775808 <? digits_value ds)) with false by lia. reflexivity.
    + replace (9223372036854775807 <? digits_value ds) with false by lia. reflexivity.
Qed.
Lemma opt_field_spec : forall A (f : json -> option A) (R : json -> A -> Prop), (forall v a, f v = Some a <-> R v a) ->
  forall o r, opt_field f o = Some r <-> maybe R o r.
Proof.
  intros A f R H o r. destruct o as [v|]; cbn [opt_field maybe]; [|split; congruence]. destruct v as [|b|neg ds fl|u|l|l]; cbn [as_option]; [split; congruence|..];
    (split; [destruct (f _) as [a|] eqn:E; [|discriminate]; intros [= <-]; exists a; split; [now apply H|reflexivity]|intros (a & Ha & ->); apply H in Ha; now rewrite Ha]).
Qed.
Lemma one_tn_spec : forall A (f : json -> option A) (R : json -> A -> Prop), (forall v a, f v = Some a <-> R v a) ->
  forall v r, one_tn f v = Some r <-> number_in R v r.
Proof.
  intros A f R H v r. unfold one_tn, number_in. split.
  - destruct (fields [lit "tn"] v) as [[|o [|? ?]]|] eqn:E; try discriminate. intros K. exists o. split; [now apply fields_spec|]. now apply (opt_field_spec A f R H).
  - intros (o & F & M). apply fields_spec in F. rewrite F. now apply (opt_field_spec A f R H).
Qed.
Lemma level_spec : forall s l, level_parse s = Some l <-> s = level_str l.
Proof.
  intros s l. split; [|intros ->; apply level_round]. unfold level_parse. destruct (str_eqb s (lit "A")) eqn:E1; [apply str_eqb_spec in E1; intros [= <-]; assumption|].
  destruct (str_eqb s (lit "B")) eqn:E2; [apply str_eqb_spec in E2; intros [= <-]; assumption|]. destruct (str_eqb s (lit "C")) eqn:E3; [apply str_eqb_spec in E3; intros [= <-]; assumption|discriminate].
Qed.
Lemma fields_length : forall names v os, fields names v = Some os -> length os = length names.
Proof.
  intros names v os H. apply fields_spec in H. destruct v as [|b|neg ds fl|u|l|l]; cbn [has_fields] in H; try contradiction; [apply H|].
  destruct H as [_ H]. induction H; [reflexivity|cbn [length]; congruence].
Qed.
Lemma b64_spec : forall s b, b64_dec s = Some b <-> base64url s b /\ is_bytes b = true.
Proof.
  intros s b. split; [intros H; split; [now apply b64_sound|now apply b64_dec_enc in H]|]. intros [H1 H2]. now apply b64_complete.
Qed.
Lemma b64_dec_chars : forall s b, b64_dec s = Some b -> forallb b64_char s = true.
Proof. intros s b H. apply b64_dec_enc in H as [-> H]. now apply b64_enc_chars. Qed.
Lemma raw_header_spec : forall v h, (exists x, raw_header v = Some (ph_alg h, ph_typ h, ph_ppt h, x) /\ x = Some (ph_x5u h)) <-> header_says v h.
Proof.
  intros v h. unfold raw_header, header_says. split.
  - intros (x & H & ->). destruct (fields _ v) as [os|] eqn:F; [|discriminate]. destruct os as [|[alg|] [|typ [|ppt [|x5u [|? ?]]]]]; try discriminate.
    destruct (as_string alg) as [a|] eqn:E1; [|discriminate]. destruct (opt_field as_string typ) as [t|] eqn:E2; [|discriminate]. destruct (opt_field as_string ppt) as [p|] eqn:E3; [|discriminate].
    destruct (opt_field as_string x5u) as [x|] eqn:E4; [|discriminate]. injection H as -> -> -> ->. apply fields_spec in F.
    apply (opt_field_spec _ as_string text as_string_spec) in E2, E3, E4. apply as_string_spec in E1. destruct x5u as [xv|]; [|discriminate E4]. exists alg, typ, ppt, xv. repeat split; try assumption.
    destruct xv as [| | |u| |]; cbn [maybe] in E4; try discriminate E4; destruct E4 as (s & T & [= <-]); exact T.
  - intros (alg & typ & ppt & x5u & F & A & T & P & X). apply fields_spec in F. rewrite F. apply as_string_spec in A. rewrite A.
    apply (opt_field_spec _ as_string text as_string_spec) in T, P. rewrite T, P.
    assert (opt_field as_string (Some x5u) = Some (Some (ph_x5u h))) as ->; [|eauto]. apply (opt_field_spec _ as_string text as_string_spec). destruct X as (u & -> & X). cbn [maybe]. exists (ph_x5u h). split; [now exists u|reflexivity].
Qed.
Definition claims_of (r : option str * option (option str) * option (option (list str)) * option Z * option str) : option pclaims :=
  let '(attest, orig, dest, iat, origid) := r in
  match (match attest with None => Some None | Some a => option_map Some (level_parse a) end) with
  | None => None
  | Some lv => Some (mkPClaims lv (oflat orig) (match oflat dest with Some l => l | None => [] end) iat origid)
  end.
Lemma raw_claims_spec : forall v c, obind (raw_claims v) claims_of = Some c <-> claims_say v c.
Proof.
  intros v c. unfold raw_claims, claims_say. split.
  - destruct (fields _ v) as [os|] eqn:F; [|discriminate]. pose proof (fields_length _ _ _ F) as L. cbn [length] in L. destruct os as [|attest [|orig [|dest [|iat [|origid [|? ?]]]]]]; try (cbn in L; discriminate). clear L.
    destruct (opt_field as_string attest) as [a|] eqn:E1; [|discriminate]. destruct (opt_field (one_tn as_string) orig) as [o|] eqn:E2; [|discriminate].
    destruct (opt_field (one_tn as_strings) dest) as [d|] eqn:E3; [|discriminate]. destruct (opt_field as_i64 iat) as [i|] eqn:E4; [|discriminate]. destruct (opt_field as_string origid) as [g|] eqn:E5; [|discriminate].
    cbn [obind claims_of]. intros H. apply fields_spec in F.
    apply (opt_field_spec _ _ text as_string_spec) in E1, E5. apply (opt_field_spec _ _ _ (one_tn_spec _ _ text as_string_spec)) in E2.
    apply (opt_field_spec _ _ _ (one_tn_spec _ _ texts as_strings_spec)) in E3. apply (opt_field_spec _ _ whole as_i64_spec) in E4.
    destruct (match a with None => Some None | Some x => option_map Some (level_parse x) end) as [lv|] eqn:El; [|discriminate]. injection H as <-. cbn [pc_attest pc_orig pc_dest pc_iat pc_origid].
    exists attest, orig, dest, iat, origid, o, d. split; [exact F|]. split; [|now repeat split].
    destruct attest as [av|]; [|cbn [maybe] in *; subst a; now injection El as <-].
    destruct av as [| | |u| |]; cbn [maybe] in *; try (subst a; now injection El as <-); destruct E1 as (s & T & ->); cbn [option_map] in El; destruct (level_parse s) as [lx|] eqn:Es; try discriminate; injection El as <-; apply level_spec in Es; subst s; now exists lx.
  - intros (attest & orig & dest & iat & origid & ro & rd & F & A & O & PO & D & PD & I & G). apply fields_spec in F. rewrite F.
    apply (opt_field_spec _ _ text as_string_spec) in G. apply (opt_field_spec _ _ _ (one_tn_spec _ _ text as_string_spec)) in O.
    apply (opt_field_spec _ _ _ (one_tn_spec _ _ texts as_strings_spec)) in D. apply (opt_field_spec _ _ whole as_i64_spec) in I. rewrite G, O, D, I.
    assert (X : opt_field as_string attest = Some (option_map level_str (pc_attest c))).
    { apply (opt_field_spec _ _ text as_string_spec). destruct attest as [av|]; [|cbn [maybe] in *; now rewrite A]. destruct av as [| | |u| |]; cbn [maybe] in *; try (now rewrite A); destruct A as (lx & T & ->); exists (level_str lx); split; try reflexivity; exact T. }
    rewrite X. cbn [obind claims_of]. destruct c as [ca co cd ci cg]. cbn [pc_attest pc_orig pc_dest pc_iat pc_origid] in *. subst co cd. destruct ca as [l|]; cbn [option_map]; [rewrite level_round|]; reflexivity.
Qed.
Lemma decode_parts : forall t p, decode t = Ok p -> exists a c s hb cb, split_on 46 t = [a; c; s] /\ b64_dec a = Some hb /\ b64_dec c = Some cb /\ b64_dec s = Some (pp_sig p)
  /\ pp_input p = utf8 (a ++ [46] ++ c) /\ obind (json_parse hb) raw_header = Some (ph_alg (pp_header p), ph_typ (pp_header p), ph_ppt (pp_header p), Some (ph_x5u (pp_header p)))
  /\ obind (obind (json_parse cb) raw_claims) claims_of = Some (pp_claims p).
Proof.
  intros t p H. unfold decode in H. destruct (split_on 46 t) as [|a [|c [|s [|? ?]]]]; try discriminate.
  destruct (b64_dec a) as [hb|] eqn:Ea; [|discriminate]. destruct (b64_dec c) as [cb|] eqn:Ec; [|discriminate]. destruct (b64_dec s) as [sg|] eqn:Es; [|discriminate].
  destruct (obind (json_parse hb) raw_header) as [[[[alg typ] ppt] x5u]|] eqn:Eh; [|discriminate]. destruct (obind (json_parse cb) raw_claims) as [[[[[attest orig] dest] iat] origid]|] eqn:Ecl; [|discriminate].
  destruct x5u as [x|]; [|discriminate]. destruct (match attest with None => Some None | Some y => option_map Some (level_parse y) end) as [lv|] eqn:El; [|discriminate].
  injection H as <-. cbn [pp_sig pp_input pp_header pp_claims ph_alg ph_typ ph_ppt ph_x5u]. exists a, c, s, hb, cb. split; [reflexivity|]. split; [assumption|]. split; [assumption|]. split; [assumption|]. split; [reflexivity|]. split; [assumption|].
  rewrite Ecl. cbn [obind]. unfold claims_of. now rewrite El.
Qed.
Lemma parts_decode : forall t p a c s hb cb, split_on 46 t = [a; c; s] -> b64_dec a = Some hb -> b64_dec c = Some cb -> b64_dec s = Some (pp_sig p)
  -> pp_input p = utf8 (a ++ [46] ++ c) -> obind (json_parse hb) raw_header = Some (ph_alg (pp_header p), ph_typ (pp_header p), ph_ppt (pp_header p), Some (ph_x5u (pp_header p)))
  -> obind (obind (json_parse cb) raw_claims) claims_of = Some (pp_claims p) -> decode t = Ok p.
Proof.
  intros t p a c s hb cb E1 E2 E3 E4 E5 E6 E7. unfold decode. rewrite E1, E2, E3, E4, E6. destruct (obind (json_parse cb) raw_claims) as [[[[[attest orig] dest] iat] origid]|]; [|discriminate].
  cbn [obind claims_of] in E7. destruct (match attest with None => Some None | Some y => option_map Some (level_parse y) end) as [lv|]; [|discriminate]. injection E7 as E7. rewrite E7, <- E5. destruct p as [[ha ht hp hx] cl i sg]. reflexivity.
Qed.
Lemma split_three : forall t a c s, split_on 46 t = [a; c; s] -> t = a ++ [46] ++ c ++ [46] ++ s.
Proof. intros t a c s H. rewrite <- (join_split_on 46 t), H. cbn [join]. reflexivity. Qed.
Lemma decode_spec : forall t p, decode t = Ok p <-> token_says t p.
Proof.
  intros t p. split.
  - intros H. apply decode_parts in H as (a & c & s & hb & cb & E1 & E2 & E3 & E4 & E5 & E6 & E7). apply split_three in E1. pose proof (b64_dec_chars _ _ E2) as Ca. pose proof (b64_dec_chars _ _ E3) as Cc.
    apply b64_spec in E2 as [A1 A2], E3 as [C1 C2], E4 as [S1 S2]. destruct (json_parse hb) as [hv|] eqn:Eh; [|discriminate]. destruct (json_parse cb) as [cv|] eqn:Ec; [|discriminate]. cbn [obind] in E6, E7.
    exists a, c, s, hb, cb, hv, cv. split; [exact E1|]. split.
    { rewrite E5. apply utf8_ascii. rewrite !forallb_app, (b64_ascii a), (b64_ascii c) by assumption. reflexivity. }
    repeat split; try assumption; try (now apply json_parse_spec).
    + apply raw_header_spec. eexists. split; [exact E6|reflexivity].
    + apply raw_claims_spec. exact E7.
  - intros (a & c & s & hb & cb & hv & cv & E1 & E5 & A1 & C1 & S1 & S2 & A2 & Jh & Hh & C2 & Jc & Hc).
    assert (E2 : b64_dec a = Some hb) by (apply b64_spec; now split). assert (E3 : b64_dec c = Some cb) by (apply b64_spec; now split). assert (E4 : b64_dec s = Some (pp_sig p)) by (apply b64_spec; now split).
    pose proof (b64_dec_chars _ _ E2) as Ka. pose proof (b64_dec_chars _ _ E3) as Kc. pose proof (b64_dec_chars _ _ E4) as Ks.
    apply (parts_decode t p a c s hb cb); try assumption.
    + rewrite E1. apply three_parts; (apply b64_no; [assumption|now left]).
    + rewrite E5. symmetry. apply utf8_ascii. change (lit ".") with [46]. rewrite !forallb_app, (b64_ascii a), (b64_ascii c) by assumption. reflexivity.
    + apply json_parse_spec in Jh. rewrite Jh. cbn [obind]. apply raw_header_spec in Hh as (x & Hh & ->). exact Hh.
    + apply json_parse_spec in Jc. rewrite Jc. cbn [obind]. now apply raw_claims_spec.
Qed.

(** ** DER signatures *)
Lemma be_fold : forall b a, fold_left (fun a c => a * 256 + c) b a = a * 256 ^ llen b + be b.
Proof.
  induction b as [|x b IH]; intros a; [unfold be; cbn; lia|]. unfold be. cbn [fold_left]. rewrite (IH (a * 256 + x)), (IH (0 * 256 + x)). rewrite llen_cons.
  replace (1 + llen b) with (N.succ (llen b)) by lia. rewrite N.pow_succ_r'. lia.
Qed.
Lemma be_cons : forall x b, be (x :: b) = x * 256 ^ llen b + be b.
Proof. intros x b. unfold be at 1. cbn [fold_left]. rewrite be_fold. reflexivity. Qed.
Lemma be_lt : forall b, is_bytes b = true -> be b < 256 ^ llen b.
Proof.
  induction b as [|x b IH]; intros H; [reflexivity|]. unfold is_bytes in *. cbn [forallb] in H. apply andb_prop in H as [H1 H2]. apply IH in H2. rewrite be_cons, llen_cons. replace (1 + llen b) with (N.succ (llen b)) by lia. rewrite N.pow_succ_r'.
  apply N.ltb_lt in H1. nia.
Qed.
Lemma be_inj : forall a b, length a = length b -> is_bytes a = true -> is_bytes b = true -> be a = be b -> a = b.
Proof.
  induction a as [|x a IH]; intros [|y b] L Ha Hb H; try discriminate; [reflexivity|]. cbn [length] in L. injection L as L. unfold is_bytes in *. cbn [forallb] in Ha, Hb. apply andb_prop in Ha as [A1 A2], Hb as [B1 B2].
  rewrite !be_cons in H. assert (E : llen a = llen b) by (unfold llen; now rewrite L). rewrite E in H. pose proof (be_lt a A2) as X. pose proof (be_lt b B2) as Y. rewrite E in X.
  assert (x = y) by nia. subst y. f_equal. apply IH; try assumption. lia.
Qed.
Lemma shortest_range : forall c, is_bytes c = true -> shortest c -> (length c = 1%nat /\ be c < 128) \/ (exists k, length c = S (S k) /\ 128 * 256 ^ N.of_nat k <= be c < 128 * 256 ^ N.of_nat (S k)).
Proof.
  intros [|x [|y c]] H S; cbn [shortest] in S; [contradiction|left; split; [reflexivity|now cbn]|right]. exists (length c). split; [reflexivity|].
  unfold is_bytes in H. cbn [forallb] in H. apply andb_prop in H as [H1 H]. apply andb_prop in H as [H2 H]. rewrite !be_cons, !llen_cons. pose proof (be_lt c H) as L.
  rewrite Nat2N.inj_succ, N.pow_succ_r'. unfold llen in *. replace (1 + N.of_nat (length c)) with (N.succ (N.of_nat (length c))) by lia. rewrite N.pow_succ_r'. set (P := 256 ^ N.of_nat (length c)) in *. apply N.ltb_lt in H1, H2.
  destruct S as [S1 S2]. split; [|nia]. destruct (N.eq_dec x 0) as [->|Hx]; [specialize (S2 eq_refl); nia|nia].
Qed.
Lemma shortest_inj : forall a b, is_bytes a = true -> is_bytes b = true -> shortest a -> shortest b -> be a = be b -> a = b.
Proof.
  intros a b Ha Hb Sa Sb E. apply be_inj; try assumption. destruct (shortest_range a Ha Sa) as [[La Ra]|(k & La & Ra)]; destruct (shortest_range b Hb Sb) as [[Lb Rb]|(j & Lb & Rb)].
  - congruence.
  - exfalso. assert (1 <= 256 ^ N.of_nat j) by (apply N.lt_pred_le; apply N.neq_0_lt_0, N.pow_nonzero; lia). nia.
  - exfalso. assert (1 <= 256 ^ N.of_nat k) by (apply N.lt_pred_le; apply N.neq_0_lt_0, N.pow_nonzero; lia). nia.
  - rewrite La, Lb. do 2 f_equal. destruct (lt_eq_lt_dec k j) as [[H|H]|H]; [|assumption|]; exfalso.
    + assert (256 ^ N.of_nat (S k) <= 256 ^ N.of_nat j) by (apply N.pow_le_mono_r; lia). nia.
    + assert (256 ^ N.of_nat (S j) <= 256 ^ N.of_nat k) by (apply N.pow_le_mono_r; lia). nia.
Qed.
Lemma der_integer_unique : forall n a b, der_integer n a -> der_integer n b -> a = b.
Proof. intros n a b (c & -> & _ & Bc & Sc & <-) (d & -> & _ & Bd & Sd & E). assert (d = c) as -> by now apply shortest_inj. reflexivity. Qed.
Lemma der_signature_unique : forall r s a b, der_signature r s a -> der_signature r s b -> a = b.
Proof.
  intros r s a b (a1 & a2 & A1 & A2 & _ & ->) (b1 & b2 & B1 & B2 & _ & ->). now rewrite (der_integer_unique r a1 b1 A1 B1), (der_integer_unique s a2 b2 A2 B2).
Qed.
Lemma strip_zeros_spec : forall b, b <> [] -> is_bytes b = true -> exists z, b = repeat 0 z ++ strip_zeros b /\ strip_zeros b <> [] /\ (length (strip_zeros b) = 1%nat \/ hd 0 (strip_zeros b) <> 0).
Proof.
  induction b as [|x b IH]; intros H B; [congruence|]. cbn [strip_zeros]. destruct b as [|y b]; [exists 0%nat; split; [reflexivity|split; [discriminate|now left]]|].
  destruct (x =? 0) eqn:E.
  - apply N.eqb_eq in E. subst x. unfold is_bytes in B. cbn [forallb] in B. apply andb_prop in B as [_ B]. destruct (IH ltac:(discriminate) B) as (z & E1 & E2 & E3). exists (S z). split; [cbn [repeat app]; now rewrite <- E1|now split].
  - exists 0%nat. split; [reflexivity|]. split; [discriminate|]. right. cbn. lia.
Qed.
Lemma be_zeros : forall z b, be (repeat 0 z ++ b) = be b.
Proof. induction z as [|z IH]; intros b; [reflexivity|]. cbn [repeat app]. rewrite be_cons, IH. lia. Qed.
Lemma is_bytes_zeros : forall z b, is_bytes (repeat 0 z ++ b) = is_bytes b.
Proof. induction z as [|z IH]; intros b; [reflexivity|]. cbn [repeat app]. unfold is_bytes in *. cbn [forallb]. now rewrite IH. Qed.
Lemma der_uint_spec : forall b, length b = 32%nat -> is_bytes b = true -> der_integer (be b) (der_uint b) /\ llen (der_uint b) <= 35.
Proof.
  intros b L B. destruct (strip_zeros_spec b) as (z & E & Ne & M); [now destruct b|assumption|]. unfold der_uint. set (v := strip_zeros b) in *. clearbody v. cbv zeta.
  assert (Lv : (1 <= length v <= 32)%nat) by (rewrite E, app_length in L; destruct v; [congruence|cbn [length] in *; lia]).
  assert (Bv : is_bytes v = true) by (rewrite E, is_bytes_zeros in B; assumption). assert (Ev : be b = be v) by (rewrite E; apply be_zeros).
  destruct v as [|x v]; [congruence|]. destruct (128 <=? x) eqn:Ex.
  - split.
    + exists (0 :: x :: v). rewrite !llen_cons in *. split; [cbn [app]; rewrite N.mod_small by (unfold llen in *; cbn [length] in *; lia); f_equal; f_equal; lia|]. split; [unfold llen; cbn [length] in *; lia|].
      split; [exact Bv|]. split; [cbn [shortest]; lia|]. rewrite be_cons, Ev. lia.
    + cbn [app]. rewrite !llen_cons. unfold llen. cbn [length] in *. lia.
  - split.
    + exists (x :: v). rewrite !llen_cons in *. split; [cbn [app]; rewrite N.mod_small by (unfold llen in *; cbn [length] in *; lia); f_equal; f_equal; lia|]. split; [unfold llen; cbn [length] in *; lia|].
      split; [exact Bv|]. split; [|now rewrite Ev]. cbn [shortest]. destruct v as [|y v]; [lia|]. split; [lia|]. intros ->. exfalso. destruct M as [M|M]; [discriminate|now apply M].
    + cbn [app]. rewrite !llen_cons. unfold llen. cbn [length] in *. lia.
Qed.
Lemma jose_to_der_spec : forall sig d, is_bytes sig = true -> jose_to_der sig = Some d <-> llen sig = 64 /\ der_signature (be (firstn 32 sig)) (be (skipn 32 sig)) d.
Proof.
  intros sig d B. assert (X : llen sig = 64 -> exists d', jose_to_der sig = Some d' /\ der_signature (be (firstn 32 sig)) (be (skipn 32 sig)) d').
  { intros L. unfold jose_to_der. rewrite L. cbn [N.eqb Pos.eqb negb]. cbv zeta. eexists. split; [reflexivity|]. unfold llen in L.
    assert (B1 : is_bytes (firstn 32 sig) = true /\ is_bytes (skipn 32 sig) = true) by (rewrite <- (firstn_skipn 32 sig), is_bytes_app in B; now apply andb_prop in B). destruct B1 as [B1 B2].
    destruct (der_uint_spec (firstn 32 sig)) as [D1 L1]; [rewrite firstn_length; lia|assumption|]. destruct (der_uint_spec (skipn 32 sig)) as [D2 L2]; [rewrite skipn_length; lia|assumption|].
    exists (der_uint (firstn 32 sig)), (der_uint (skipn 32 sig)). split; [exact D1|]. split; [exact D2|]. rewrite llen_app. split; [lia|]. rewrite N.mod_small by lia. reflexivity. }
  split.
  - intros H. assert (L : llen sig = 64) by (unfold jose_to_der in H; destruct (llen sig =? 64) eqn:E; [now apply N.eqb_eq|discriminate]). split; [exact L|]. destruct (X L) as (d' & E & D). congruence.
  - intros [L D]. destruct (X L) as (d' & E & D'). rewrite E. f_equal. now apply (der_signature_unique (be (firstn 32 sig)) (be (skipn 32 sig))).
Qed.
Lemma all_some_spec : forall A B (f : A -> option B) l r, all_some f l = Some r <-> Forall2 (fun x y => f x = Some y) l r.
Proof.
  intros A B f. induction l as [|x l IH]; intros r; cbn [all_some].
  - split; [intros [= <-]; constructor|now inversion 1].
  - split.
    + destruct (f x) as [y|] eqn:E; [|discriminate]. destruct (all_some f l) as [t|]; [|discriminate]. intros [= <-]. constructor; [assumption|now apply IH].
    + inversion 1 as [|? y ? t H1 H2]; subst. rewrite H1. apply IH in H2. now rewrite H2.
Qed.

(** ** The Identity header *)
Lemma bare_no_edge : forall s, bare s -> no_edge is_ws s.
Proof.
  intros s [H1 H2]. split.
  - destruct s as [|c s]; [exact I|]. now apply (H1 c s).
  - destruct (rev s) as [|c t] eqn:E; [exact I|]. apply (H2 (rev t) c). rewrite <- (rev_involutive s), E. reflexivity.
Qed.
Lemma trim_pad : forall a s b, blank a -> blank b -> bare s -> trim (a ++ s ++ b) = s.
Proof.
  intros a s b Ha Hb Hs. unfold trim, trim_by, trim_start_by.
  assert (X : forall t, drop_while is_ws (a ++ t) = drop_while is_ws t).
  { intros t. unfold blank in Ha. induction a as [|c a IH]; [reflexivity|]. cbn [forallb] in Ha. apply andb_prop in Ha as [A1 A2]. cbn [app drop_while]. rewrite A1. now apply IH. }
  rewrite X. rewrite trim_end_by_rev. destruct s as [|c s].
  - cbn [app]. assert (drop_while is_ws b = []) as ->; [|reflexivity]. clear - Hb. unfold blank in Hb. induction b as [|c b IH]; [reflexivity|]. cbn [forallb] in Hb. apply andb_prop in Hb as [A1 A2]. cbn [drop_while]. rewrite A1. now apply IH.
  - cbn [app]. rewrite (drop_while_id is_ws (c :: s ++ b)) by (apply (proj1 Hs c s eq_refl)). change (c :: s ++ b) with ((c :: s) ++ b). rewrite rev_app_distr.
    assert (Y : forall u, blank u -> forall t, drop_while is_ws (u ++ t) = drop_while is_ws t).
    { intros u Hu t. unfold blank in Hu. induction u as [|d u IH]; [reflexivity|]. cbn [forallb] in Hu. apply andb_prop in Hu as [A1 A2]. cbn [app drop_while]. rewrite A1. now apply IH. }
    rewrite Y; [|unfold blank in *; rewrite forallb_forall in *; intros d Hd; apply Hb; now rewrite in_rev].
    destruct (bare_no_edge _ Hs) as [_ E]. rewrite drop_while_id; [apply rev_involutive|]. destruct (rev (c :: s)); [exact I|assumption].
Qed.
Lemma trim_bare : forall s, bare s -> trim s = s.
Proof. intros s H. pose proof (trim_pad [] s [] eq_refl eq_refl H) as X. cbn [app] in X. now rewrite app_nil_r in X. Qed.
Lemma trim_right : forall s b, blank b -> bare s -> trim (s ++ b) = s.
Proof. intros s b H. now apply (trim_pad []). Qed.
Lemma bare_app3 : forall a m b, a <> [] -> bare a -> bare b -> (b = [] -> match rev (a ++ m) with [] => True | c :: _ => is_ws c = false end) -> bare (a ++ m ++ b).
Proof.
  intros a m b Na [A1 A2] [B1 B2] H. split.
  - intros c r E. destruct a as [|x a]; [congruence|]. injection E as -> _. now apply (A1 c a).
  - intros r c E. destruct b as [|y b].
    + rewrite app_nil_r in E. specialize (H eq_refl). rewrite E in H. rewrite rev_app_distr in H. exact H.
    + destruct (exists_last (l := y :: b) ltac:(discriminate)) as (b' & z & Eb). rewrite Eb in E. rewrite !app_assoc in E. apply app_inj_tail in E as [_ ->]. apply (B2 b' c). now rewrite Eb.
Qed.
Definition seg_of (p : piece) : str := b1 p ++ key p ++ b2 p ++ [61] ++ b3 p ++ val p ++ b4 p.
(** the trimmed segment: [key b2 = rest] *)
Lemma seg_reads : forall p, piece_ok p -> exists t, trim (seg_of p) = t /\ t <> [] /\ exists k v, split_once 61 t = Some (k, v) /\ trim k = key p /\ trim v = val p.
Proof.
  intros p (B1 & B2 & B3 & B4 & K & V & Nk & K59 & K61 & V59). unfold seg_of.
  assert (Sp : forall s, blank s -> mem 61 s = false).
  { intros s H. apply mem_false. intros Hi. unfold blank in H. rewrite forallb_forall in H. apply H in Hi. discriminate. }
  assert (Sk : forall v, split_once 61 (key p ++ b2 p ++ [61] ++ v) = Some (key p ++ b2 p, v)).
  { intros v. rewrite app_assoc. apply split_once_app. rewrite mem_app, (Sp (b2 p) B2), orb_false_r. now apply mem_false. }
  destruct (val p) as [|vc vr] eqn:Ev.
  - exists (key p ++ b2 p ++ [61]). split.
    + replace (b1 p ++ key p ++ b2 p ++ [61] ++ b3 p ++ [] ++ b4 p) with (b1 p ++ (key p ++ b2 p ++ [61]) ++ b3 p ++ b4 p) by (rewrite <- !app_assoc; reflexivity).
      apply trim_pad; [assumption|unfold blank in *; now rewrite forallb_app, B3, B4|]. apply bare_app3; [assumption|assumption| |discriminate]. split; [intros c r [= <- _]; reflexivity|intros r c E; destruct r as [|? [|? ?]]; inversion E; reflexivity].
    + split; [destruct (key p); [congruence|discriminate]|]. exists (key p ++ b2 p), []. split; [|split; [now apply trim_right|reflexivity]]. pose proof (Sk []) as X. cbn [app] in X. exact X.
  - rewrite <- Ev in *. exists (key p ++ b2 p ++ [61] ++ b3 p ++ val p). split.
    + replace (b1 p ++ key p ++ b2 p ++ [61] ++ b3 p ++ val p ++ b4 p) with (b1 p ++ (key p ++ b2 p ++ [61] ++ b3 p ++ val p) ++ b4 p) by (rewrite <- !app_assoc; reflexivity).
      apply trim_pad; [assumption|assumption|]. replace (key p ++ b2 p ++ [61] ++ b3 p ++ val p) with (key p ++ (b2 p ++ [61] ++ b3 p) ++ val p) by (rewrite <- !app_assoc; reflexivity).
      apply bare_app3; [assumption|assumption|assumption|]. intros E. congruence.
    + split; [destruct (key p); [congruence|discriminate]|]. exists (key p ++ b2 p), (b3 p ++ val p). split; [apply Sk|]. split; [now apply trim_right|].
      rewrite <- (app_nil_r (val p)) at 1. now apply trim_pad.
Qed.
Lemma strip_ends_spec : forall c d s x, strip_ends c d s = Some x <-> s = [c] ++ x ++ [d].
Proof.
  intros c d s x. unfold strip_ends. split.
  - destruct s as [|y s]; [discriminate|]. destruct (y =? c) eqn:E; [|discriminate]. apply N.eqb_eq in E. subst y. destruct (rev s) as [|z q] eqn:Er; [discriminate|]. destruct (z =? d) eqn:Ez; [|discriminate]. apply N.eqb_eq in Ez. subst z.
    intros [= <-]. cbn [app]. f_equal. rewrite <- (rev_involutive s), Er. reflexivity.
  - intros ->. cbn [app]. rewrite N.eqb_refl, rev_app_distr. cbn [rev app]. rewrite N.eqb_refl, rev_involutive. reflexivity.
Qed.
Lemma unquote_spec : forall v, unquoted v (unquote v).
Proof.
  intros v. unfold unquote, unquoted. destruct (strip_ends 34 34 v) as [x|] eqn:E; [left; now apply strip_ends_spec|]. right. split; [reflexivity|]. intros x K. apply strip_ends_spec in K. congruence.
Qed.
Lemma strip_angle_bare : forall v, bare v -> strip_angle v = option_map trim (strip_ends 60 62 v).
Proof. intros v H. unfold strip_angle. now rewrite trim_bare. Qed.
(** the parameters, one after another *)
Definition pick (n : str) (f : str -> str) (acc : option str) (p : piece) : option str := if eq_ic (key p) n then Some (f (val p)) else acc.
Definition angle_of (v : str) : str := match strip_ends 60 62 v with Some x => trim x | None => [] end.
Lemma lower_lit : forall k n, lower n = n -> str_eqb (lower k) n = eq_ic k n.
Proof. intros k n H. unfold eq_ic. now rewrite H. Qed.
Lemma id_params_pieces : forall ps info alg ppt, Forall piece_ok ps -> (forall p, In p ps -> eq_ic (key p) (lit "info") = true -> exists x, bracketed (val p) x) ->
  id_params (map seg_of ps) info alg ppt = Some (fold_left (pick (lit "info") angle_of) ps info, fold_left (pick (lit "alg") unquote) ps alg, fold_left (pick (lit "ppt") unquote) ps ppt).
Proof.
  induction ps as [|p ps IH]; intros info alg ppt Hp Hi; [reflexivity|]. inversion Hp as [|? ? P1 P2]; subst. cbn [map id_params fold_left].
  destruct (seg_reads p P1) as (t & -> & Nt & k & v & Es & Ek & Ev). destruct t as [|tc t]; [congruence|]. rewrite Es. cbv zeta. rewrite Ek, Ev. rewrite !lower_lit by reflexivity. unfold pick at 2 4 6.
  assert (IHi := fun a b c => IH a b c P2 (fun q Hq => Hi q (or_intror Hq))).
  destruct (eq_ic (key p) (lit "info")) eqn:E1.
  - destruct (Hi p (or_introl eq_refl) E1) as [x Hx]. unfold bracketed in Hx. apply strip_ends_spec in Hx. rewrite strip_angle_bare by apply P1. unfold angle_of at 2. rewrite Hx. cbn [option_map].
    assert (E2 : eq_ic (key p) (lit "alg") = false) by (apply eq_ic_spec in E1; unfold eq_ic; rewrite E1; reflexivity).
    assert (E3 : eq_ic (key p) (lit "ppt") = false) by (apply eq_ic_spec in E1; unfold eq_ic; rewrite E1; reflexivity). rewrite E2, E3. apply IHi.
  - destruct (eq_ic (key p) (lit "alg")) eqn:E2.
    + assert (E3 : eq_ic (key p) (lit "ppt") = false) by (apply eq_ic_spec in E2; unfold eq_ic; rewrite E2; reflexivity). rewrite E3. apply IHi.
    + destruct (eq_ic (key p) (lit "ppt")) eqn:E3; apply IHi.
Qed.
Lemma id_params_refuse : forall ps info alg ppt, Forall piece_ok ps -> (exists p, In p ps /\ eq_ic (key p) (lit "info") = true /\ forall x, ~ bracketed (val p) x) ->
  id_params (map seg_of ps) info alg ppt = None.
Proof.
  induction ps as [|p ps IH]; intros info alg ppt Hp Hi; [destruct Hi as (p & [] & _)|]. inversion Hp as [|? ? P1 P2]; subst. cbn [map id_params].
  destruct (seg_reads p P1) as (t & -> & Nt & k & v & Es & Ek & Ev). destruct t as [|tc t]; [congruence|]. rewrite Es. cbv zeta. rewrite Ek, Ev. rewrite !lower_lit by reflexivity.
  destruct Hi as (q & Hq & Q1 & Q2). destruct (eq_ic (key p) (lit "info")) eqn:E1.
  - rewrite strip_angle_bare by apply P1. destruct (strip_ends 60 62 (val p)) as [x|] eqn:Ex; [|reflexivity]. cbn [option_map]. apply IH; [assumption|]. destruct Hq as [<-|Hq]; [|now exists q].
    exfalso. apply (Q2 x). now apply strip_ends_spec.
  - assert (Hq' : In q ps) by (destruct Hq as [<-|Hq]; [congruence|assumption]).
    destruct (eq_ic (key p) (lit "alg")); [apply IH; eauto|]. destruct (eq_ic (key p) (lit "ppt")); apply IH; eauto.
Qed.
Lemma fold_pick : forall n f ps acc, (exists o, last_param n ps (Some o) /\ fold_left (pick n f) ps acc = Some (f o)) \/ (last_param n ps None /\ fold_left (pick n f) ps acc = acc).
Proof.
  intros n f ps. induction ps as [|p ps IH]; intros acc; [right; split; [intros q []|reflexivity]|]. cbn [fold_left]. destruct (IH (pick n f acc p)) as [(o & L & E)|[L E]].
  - left. exists o. split; [|exact E]. destruct L as (l1 & q & l2 & -> & H1 & H2 & H3). exists (p :: l1), q, l2. now repeat split.
  - rewrite E. unfold pick. destruct (eq_ic (key p) n) eqn:Ep.
    + left. exists (val p). split; [|reflexivity]. exists [], p, ps. repeat split; [assumption|exact L].
    + right. split; [|reflexivity]. intros q [<-|Hq]; [assumption|now apply L].
Qed.
Lemma split_pieces : forall t ps, mem 59 t = false -> Forall piece_ok ps -> split_on 59 (t ++ concat (map piece_text ps)) = t :: map seg_of ps.
Proof.
  intros t ps. revert t. induction ps as [|p ps IH]; intros t Ht Hp; [cbn [map concat]; rewrite app_nil_r; now apply split_on_nomem|].
  inversion Hp as [|? ? P1 P2]; subst. cbn [map concat]. unfold piece_text at 1. rewrite <- app_assoc. change (lit ";") with [59]. cbn [app]. rewrite split_on_app by assumption. f_equal. apply IH; [|assumption].
  destruct P1 as (B1 & B2 & B3 & B4 & K & V & Nk & K59 & K61 & V59).
  assert (Sp : forall s, blank s -> mem 59 s = false) by (intros s H; apply mem_false; intros Hi; unfold blank in H; rewrite forallb_forall in H; apply H in Hi; discriminate).
  unfold seg_of. rewrite !mem_app. rewrite (Sp (b1 p)), (Sp (b2 p)), (Sp (b3 p)), (Sp (b4 p)) by assumption. apply mem_false in K59, V59. rewrite K59, V59. reflexivity.
Qed.
