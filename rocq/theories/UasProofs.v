(** Lemmas on the user agent server. *)
From Coq Require Import Arith NArith Bool String List Lia ZifyBool ZifyN ZifyNat.
Import ListNotations.
From Verif Require Import Base BaseFacts Headers HeadersProofs Method Text TextFacts Uri Msg Message Dialog Prack SessionTimer Uac UacSpec UacProofs UacSend UacSendProofs Uas UasSpec.
Open Scope N_scope.
Open Scope list_scope.

Lemma contains_spec : forall p s, contains p s = true <-> occurs p s.
Proof.
  intros p s. unfold contains, occurs. destruct (find_sub p s) as [[a b]|] eqn:E; cbn; split; intros H; try easy.
  - exists a, b. now apply find_sub_some.
  - destruct H as (a & b & ->). now apply find_sub_app in E.
Qed.
Lemma contains_not : forall p s, contains p s = false <-> ~ occurs p s.
Proof. intros p s. rewrite <- contains_spec. destruct (contains p s); split; intros H; try easy. Qed.
Lemma occurs_app : forall p a b c, occurs p b -> occurs p (a ++ b ++ c).
Proof. intros p a b c (x & y & ->). exists (a ++ x), (y ++ c). now rewrite <- !app_assoc. Qed.
Lemma first_get : forall n hs, hget (lit n) hs = match first_value n hs with v :: _ => Some v | [] => None end.
Proof. intros n hs. unfold first_value, values. rewrite get_first. now destruct (hget_all (lit n) hs). Qed.

(** ** The headers of a response in closed form *)
Definition front (rq : req) : list (str * str) :=
  map (fun v => ln "Via" v) (values "Via" (q_headers rq)) ++ opt_line "From" (hget (lit "From") (q_headers rq))
  ++ opt_line "Call-ID" (hget (lit "Call-ID") (q_headers rq)) ++ opt_line "CSeq" (hget (lit "CSeq") (q_headers rq)).
Definition rr_lines (rq : req) : list (str * str) := map (fun v => ln "Record-Route" v) (values "Record-Route" (q_headers rq)).
Definition shape (rq : req) (to : option str) (cl : str) (extra : list (str * str)) : headers :=
  front rq ++ opt_line "To" to ++ rr_lines rq ++ ln "Content-Length" cl :: extra.
Definition with_tag (tag t : str) : str := if contains (lit ";tag=") t then t else t ++ lit ";tag=" ++ tag.
Definition tagged_to (rq : req) (code : N) (tag : str) : option str :=
  match hget (lit "To") (q_headers rq) with
  | None => None
  | Some t => Some (if code =? 100 then t else with_tag tag t)
  end.

Lemma copied_shape : forall rq, copied rq ++ [zero_length] = shape rq (hget (lit "To") (q_headers rq)) (lit "0") [].
Proof. intros rq. unfold copied, shape, front, rr_lines, values, zero_length. now rewrite <- !app_assoc. Qed.

(** none of the lines in [front] has the name [n] *)
Definition unnamed (n : str) (l : list (str * str)) : Prop := Forall (fun h => eq_ic (fst h) n = false) l.
Lemma unnamed_app : forall n a b, unnamed n (a ++ b) <-> unnamed n a /\ unnamed n b.
Proof. intros. unfold unnamed. apply Forall_app. Qed.
Lemma unnamed_map : forall n k vs, eq_ic (lit k) n = false -> unnamed n (map (fun v => ln k v) vs).
Proof. intros n k vs H. unfold unnamed. apply Forall_forall. intros h Hh. apply in_map_iff in Hh. destruct Hh as (v & <- & _). exact H. Qed.
Lemma unnamed_opt : forall n k o, eq_ic (lit k) n = false -> unnamed n (opt_line k o).
Proof. intros n k [v|] H; [constructor; [exact H|constructor]|constructor]. Qed.
Lemma front_unnamed : forall rq n, eq_ic (lit "Via") n = false -> eq_ic (lit "From") n = false -> eq_ic (lit "Call-ID") n = false ->
  eq_ic (lit "CSeq") n = false -> unnamed n (front rq).
Proof. intros. unfold front. rewrite !unnamed_app. repeat split; first [now apply unnamed_map|now apply unnamed_opt]. Qed.
Lemma unnamed_get : forall n l, unnamed n l -> hget_all n l = [].
Proof. intros n l H. induction H as [|[k v] l A B IH]; [reflexivity|]. transitivity (hget_all n l); [exact (get_no n k v l A)|exact IH]. Qed.
Lemma set_first_skip : forall n v a b, unnamed n a -> set_first n v (a ++ b) = match set_first n v b with Some b' => Some (a ++ b') | None => None end.
Proof.
  intros n v a b H. induction H as [|h a A B IH]; cbn [app]; [now destruct (set_first n v b)|]. cbn [set_first]. unfold name_eq. rewrite A, IH.
  now destruct (set_first n v b).
Qed.
Lemma set_first_here : forall n k w v b, eq_ic k n = true -> set_first n v ((k, w) :: b) = Some ((k, v) :: b).
Proof. intros n k w v b H. cbn [set_first]. unfold name_eq. cbn [fst]. now rewrite H. Qed.
Lemma exact_skip : forall a b, unnamed (lit "To") a -> exact_to (a ++ b) = exact_to b.
Proof.
  intros a b H. unfold exact_to. induction H as [|h a A B IH]; [reflexivity|]. cbn [app find].
  destruct (str_eqb (fst h) (lit "To")) eqn:E; [|exact IH]. apply str_eqb_spec in E. rewrite E in A. discriminate.
Qed.
Lemma exact_none : forall a, unnamed (lit "To") a -> exact_to a = None.
Proof. intros a H. rewrite <- (app_nil_r a). now rewrite exact_skip. Qed.
Lemma front_to : forall rq, unnamed (lit "To") (front rq).
Proof. intros. apply front_unnamed; reflexivity. Qed.
Lemma rr_unnamed : forall rq n, eq_ic (lit "Record-Route") n = false -> unnamed n (rr_lines rq).
Proof. intros. now apply unnamed_map. Qed.
Lemma exact_shape : forall rq to cl extra, unnamed (lit "To") extra -> exact_to (shape rq to cl extra) = to.
Proof.
  intros rq to cl extra H. unfold shape. rewrite exact_skip by apply front_to. destruct to as [t|]; [reflexivity|]. cbn [opt_line app].
  rewrite exact_skip by (apply rr_unnamed; reflexivity). apply exact_none. constructor; [reflexivity|exact H].
Qed.
Lemma set_to_shape : forall rq t v cl extra, set_first (lit "To") v (shape rq (Some t) cl extra) = Some (shape rq (Some v) cl extra).
Proof.
  intros. unfold shape. rewrite set_first_skip by apply front_to. cbn [opt_line app]. unfold ln. now rewrite set_first_here.
Qed.
Lemma opt_to_unnamed : forall to n, eq_ic (lit "To") n = false -> unnamed n (opt_line "To" to).
Proof. intros. now apply unnamed_opt. Qed.
Lemma set_length_shape : forall rq to cl v extra, set_first (lit "Content-Length") v (shape rq to cl extra) = Some (shape rq to v extra).
Proof.
  intros. unfold shape. rewrite set_first_skip by (apply front_unnamed; reflexivity).
  rewrite set_first_skip by (apply opt_to_unnamed; reflexivity). rewrite set_first_skip by (apply rr_unnamed; reflexivity).
  unfold ln. now rewrite set_first_here.
Qed.
Lemma set_extra_shape : forall rq to cl v n extra, ~ In (lower n) (map (fun k => lower (lit k)) ["Via"; "From"; "Call-ID"; "CSeq"; "To"; "Record-Route"; "Content-Length"]%string) ->
  set_first n v (shape rq to cl extra) = match set_first n v extra with Some e => Some (shape rq to cl e) | None => None end.
Proof.
  intros rq to cl v n extra H.
  assert (X : forall k, In k ["Via"; "From"; "Call-ID"; "CSeq"; "To"; "Record-Route"; "Content-Length"]%string -> eq_ic (lit k) n = false).
  { intros k Hk. unfold eq_ic. apply not_true_is_false. intros E. apply str_eqb_spec in E. apply H. rewrite <- E. apply in_map_iff. now exists k. }
  unfold shape. rewrite set_first_skip by (apply front_unnamed; apply X; cbn; tauto).
  rewrite set_first_skip by (apply opt_to_unnamed, X; cbn; tauto). rewrite set_first_skip by (apply rr_unnamed, X; cbn; tauto).
  cbn [set_first]. unfold name_eq. cbn [ln fst]. rewrite (X "Content-Length"%string) by (cbn; tauto). now destruct (set_first n v extra).
Qed.
Ltac names := repeat match goal with
  | |- context [eq_ic (lit ?a) (lit ?b)] => let e := eval vm_compute in (eq_ic (lit a) (lit b)) in change (eq_ic (lit a) (lit b)) with e; cbv iota
  end.
(** the values of a header of this shape *)
Lemma shape_values : forall rq to cl extra, unnamed (lit "Via") extra -> unnamed (lit "From") extra -> unnamed (lit "Call-ID") extra -> unnamed (lit "CSeq") extra ->
  unnamed (lit "To") extra -> unnamed (lit "Record-Route") extra -> unnamed (lit "Content-Length") extra ->
  values "Via" (shape rq to cl extra) = values "Via" (q_headers rq)
  /\ values "Record-Route" (shape rq to cl extra) = values "Record-Route" (q_headers rq)
  /\ values "From" (shape rq to cl extra) = first_value "From" (q_headers rq)
  /\ values "Call-ID" (shape rq to cl extra) = first_value "Call-ID" (q_headers rq)
  /\ values "CSeq" (shape rq to cl extra) = first_value "CSeq" (q_headers rq)
  /\ values "To" (shape rq to cl extra) = match to with Some t => [t] | None => [] end
  /\ values "Content-Length" (shape rq to cl extra) = [cl].
Proof.
  intros rq to cl extra H1 H2 H3 H4 H5 H6 H7. unfold shape, front, rr_lines.
  assert (M : forall n k vs, values n (map (fun v => ln k v) vs) = if eq_ic (lit k) (lit n) then vs else []).
  { intros n k vs. unfold values. destruct (eq_ic (lit k) (lit n)) eqn:E; [|now apply unnamed_get, unnamed_map].
    induction vs as [|v vs IH]; [reflexivity|]. cbn [map]. unfold ln at 1. transitivity (v :: hget_all (lit n) (map (fun v => ln k v) vs)); [exact (get_yes (lit n) (lit k) v _ E)|]. f_equal. exact IH. }
  assert (O : forall n k o, values n (opt_line k o) = if eq_ic (lit k) (lit n) then match o with Some v => [v] | None => [] end else []).
  { intros n k [v|]; cbn [opt_line]; [|now destruct (eq_ic _ _)]. unfold values, ln. destruct (eq_ic (lit k) (lit n)) eqn:E; [exact (get_yes (lit n) (lit k) v [] E)|exact (get_no (lit n) (lit k) v [] E)]. }
  assert (A : forall n a b, values n (a ++ b) = values n a ++ values n b) by (intros; apply get_all_app).
  assert (C : forall n v b, values n (ln "Content-Length" v :: b) = if eq_ic (lit "Content-Length") (lit n) then v :: values n b else values n b) by (intros; apply get_all_cons).
  assert (E : forall n, unnamed (lit n) extra -> values n extra = []) by (intros; now apply unnamed_get).
  assert (F : forall n, match hget (lit n) (q_headers rq) with Some v => [v] | None => [] end = first_value n (q_headers rq)).
  { intros n. rewrite first_get. unfold first_value. now destruct (values n (q_headers rq)). }
  rewrite !A, !M, !O, !C, !E by assumption. names. rewrite !F. cbn [app]. rewrite !app_nil_r. repeat split.
Qed.

Lemma clean_tag_value : forall t tag, validate_header_value t = None -> tag_text tag ->
  validate_header_value (t ++ lit ";tag=" ++ tag) = if 8192 <? blen t + 5 + blen tag then Some ValueTooLong else None.
Proof.
  intros t tag V (_ & _ & Ht). unfold validate_header_value in *. destruct (MAX_HEADER_VALUE_LENGTH <? blen t) eqn:L; [discriminate|].
  rewrite !blen_app. change (blen (lit ";tag=")) with 5. rewrite N.add_assoc. unfold MAX_HEADER_VALUE_LENGTH in *.
  destruct (8192 <? blen t + 5 + blen tag) eqn:L2; [reflexivity|].
  assert (M : forall c, (forall x, In x tag -> x <> c) -> mem c (lit ";tag=") = false -> mem c (t ++ lit ";tag=" ++ tag) = mem c t).
  { intros c H1 H2. unfold mem in *. rewrite !existsb_app, H2. replace (existsb (N.eqb c) tag) with false; [now rewrite !orb_false_r|].
    symmetry. apply not_true_is_false. intros E. apply existsb_exists in E. destruct E as (x & Hx & E). apply N.eqb_eq in E. now apply (H1 x Hx). }
  assert (Al : forall x c, In x tag -> is_alnum c = false -> x <> c) by (intros x c Hx Hc ->; rewrite (Ht _ Hx) in Hc; discriminate).
  rewrite !M by first [intros x Hx; apply (Al x); [exact Hx|reflexivity]|reflexivity].
  destruct (mem 13 t || mem 10 t); [discriminate|]. now destruct (mem 0 t).
Qed.

(** ** What the builders return *)
Lemma status_fits_spec : forall c t, status_fits c t <-> status_new c t = Some (c, t).
Proof.
  intros c t. unfold status_fits, status_new, MAX_REASON_LENGTH, in_range. split.
  - intros (H1 & H2 & H3). replace ((100 <=? c) && (c <=? 699)) with true by lia. replace (256 <? blen t) with false by lia. cbn.
    replace (existsb is_ascii_control t) with false; [reflexivity|]. symmetry. apply not_true_is_false. intros E. apply existsb_exists in E.
    destruct E as (x & Hx & E). rewrite (H3 _ Hx) in E. discriminate.
  - destruct ((100 <=? c) && (c <=? 699)) eqn:E1; [|discriminate]. cbn [negb]. destruct (256 <? blen t) eqn:E2; [discriminate|].
    destruct (existsb is_ascii_control t) eqn:E3; [discriminate|]. intros _. split; [lia|]. split; [lia|]. intros x Hx. apply not_true_is_false. intros E.
    assert (existsb is_ascii_control t = true) by (apply existsb_exists; now exists x). congruence.
Qed.
Lemma ensure_shape : forall rq to cl extra tag, unnamed (lit "To") extra ->
  ensure_to_tag tag (shape rq to cl extra) =
  match to with
  | None => Ret (shape rq None cl extra)
  | Some t => if contains (lit ";tag=") t then Ret (shape rq (Some t) cl extra)
              else match validate_header_value (t ++ lit ";tag=" ++ tag) with
                   | None => Ret (shape rq (Some (t ++ lit ";tag=" ++ tag)) cl extra)
                   | Some _ => Panics
                   end
  end.
Proof.
  intros rq to cl extra tag H. unfold ensure_to_tag. rewrite exact_shape by exact H. destruct to as [t|]; [|reflexivity].
  destruct (contains (lit ";tag=") t); [reflexivity|]. unfold hset_or_push. change (validate_header_name (lit "To")) with (@None header_error). cbv iota.
  destruct (validate_header_value (t ++ lit ";tag=" ++ tag)); [reflexivity|]. now rewrite set_to_shape.
Qed.
Lemma create_inv : forall rq code reason tag r, create_response rq code reason tag = Ret r ->
  status_fits code reason /\ r = mkResp code reason (shape rq (tagged_to rq code tag) (lit "0") []) [].
Proof.
  intros rq code reason tag r H. unfold create_response in H. rewrite copied_shape in H. destruct (push_all [] _) as [hs|] eqn:P; [|discriminate]. cbn [obind] in H.
  apply push_all_eq in P. cbn [app] in P. subst hs. destruct (status_new code reason) as [p|] eqn:S; [|discriminate].
  assert (S' : status_new code reason = Some (code, reason)).
  { rewrite S. unfold status_new in S. destruct (negb _); [discriminate|]. destruct (_ <? _); [discriminate|]. destruct (existsb _ _); [discriminate|]. congruence. }
  split; [now apply status_fits_spec|]. cbn [response_new llen] in H. unfold response_new in H. change (MAX_BODY_SIZE <? llen []) with false in H. cbv iota in H.
  unfold tagged_to. destruct (code =? 100).
  - injection H as <-. now destruct (hget (lit "To") (q_headers rq)).
  - rewrite ensure_shape in H by constructor. destruct (hget (lit "To") (q_headers rq)) as [t|]; [|now injection H as <-].
    unfold with_tag. destruct (contains (lit ";tag=") t); [now injection H as <-|].
    destruct (validate_header_value (t ++ lit ";tag=" ++ tag)); [discriminate|]. now injection H as <-.
Qed.
Lemma with_tag_has : forall tag t, contains (lit ";tag=") (with_tag tag t) = true.
Proof.
  intros tag t. unfold with_tag. destruct (contains (lit ";tag=") t) eqn:E; [exact E|]. apply contains_spec. exists t, tag. reflexivity.
Qed.
(** tagging again changes nothing *)
Lemma retag_same : forall rq code tag tag2 c t cl extra b r, unnamed (lit "To") extra -> (code =? 100 = false \/ hget (lit "To") (q_headers rq) = None) ->
  retag tag2 (mkResp c t (shape rq (tagged_to rq code tag) cl extra) b) = Ret r -> r = mkResp c t (shape rq (tagged_to rq code tag) cl extra) b.
Proof.
  intros rq code tag tag2 c t cl extra b r H Hc R. unfold retag in R. cbn [p_headers p_code p_reason p_body] in R. rewrite ensure_shape in R by exact H. unfold tagged_to in *.
  destruct (hget (lit "To") (q_headers rq)) as [x|]; [|now injection R as <-]. destruct Hc as [Hc|]; [|discriminate]. rewrite Hc in *.
  rewrite with_tag_has in R. now injection R as <-.
Qed.
Lemma retag_ret : forall rq code tag tag2 c t cl extra b, unnamed (lit "To") extra -> code =? 100 = false ->
  retag tag2 (mkResp c t (shape rq (tagged_to rq code tag) cl extra) b) = Ret (mkResp c t (shape rq (tagged_to rq code tag) cl extra) b).
Proof.
  intros rq code tag tag2 c t cl extra b H Hc. unfold retag. cbn [p_headers p_code p_reason p_body]. rewrite ensure_shape by exact H. unfold tagged_to in *.
  destruct (hget (lit "To") (q_headers rq)) as [x|]; [|reflexivity]. rewrite Hc in *. now rewrite with_tag_has.
Qed.
Lemma push_line_inv : forall l r r', push_line l r = Ret r' -> r' = mkResp (p_code r) (p_reason r) (p_headers r ++ [l]) (p_body r).
Proof.
  intros [n v] r r' H. unfold push_line in H. cbn [fst snd] in H. destruct (hpush (p_headers r) n v) as [hs|] eqn:E; [|discriminate]. cbn in H. injection H as <-.
  unfold hpush in E. destruct (MAX_HEADERS <=? llen (p_headers r)); [discriminate|]. destruct (header_new n v) as [h|] eqn:E2; [|discriminate]. injection E as <-.
  apply header_new_ok in E2. destruct E2 as [-> _]. reflexivity.
Qed.
Lemma shape_snoc : forall rq to cl extra l, shape rq to cl extra ++ [l] = shape rq to cl (extra ++ [l]).
Proof. intros. unfold shape. now rewrite <- !app_assoc. Qed.
Lemma set_line_inv : forall n v r r', set_line (n, v) r = Ret r' ->
  exists hs, r' = mkResp (p_code r) (p_reason r) hs (p_body r) /\ (set_first n v (p_headers r) = Some hs \/ (set_first n v (p_headers r) = None /\ hs = p_headers r ++ [(n, v)])).
Proof.
  intros n v r r' H. unfold set_line in H. cbn [fst snd] in H. unfold hset_or_push in H. destruct (validate_header_name n); [discriminate|]. destruct (validate_header_value v); [discriminate|].
  destruct (set_first n v (p_headers r)) as [hs|].
  - cbn in H. injection H as <-. exists hs. split; [reflexivity|now left].
  - destruct (MAX_HEADERS <=? _); [discriminate|]. cbn in H. injection H as <-. eexists. split; [reflexivity|right; split; reflexivity].
Qed.
Lemma with_sdp_inv : forall b rq to extra c t r, with_sdp b (mkResp c t (shape rq to (lit "0") extra) []) = Ret r ->
  r = match b with
      | None => mkResp c t (shape rq to (lit "0") extra) []
      | Some x => mkResp c t (shape rq to (print_N (blen x)) (extra ++ [ln "Content-Type" (lit "application/sdp")])) (utf8 x)
      end.
Proof.
  intros [x|] rq to extra c t r H; cbn [with_sdp] in H; [|now injection H as <-].
  unfold length_line, ln in H. destruct (set_line _ _) as [r1|] eqn:E1; [|discriminate]. cbn [obind] in H. apply set_line_inv in E1. destruct E1 as (hs & -> & E1).
  cbn [p_headers p_code p_reason p_body] in *. rewrite set_length_shape in E1. destruct E1 as [E1 | [E1 _]]; [|discriminate]. injection E1 as <-.
  destruct (push_line _ _) as [r2|] eqn:E2; [|discriminate]. cbn [obind] in H. apply push_line_inv in E2. cbn [p_headers p_code p_reason p_body] in *. subst r2. cbn [p_headers p_code p_reason] in H.
  rewrite shape_snoc in H. unfold response_new in H. destruct (MAX_BODY_SIZE <? _); [discriminate|]. now injection H as <-.
Qed.
Lemma create_ok_inv : forall s rq b tag r, create_ok s rq b tag = Ret (Some r) ->
  sdp_ok b = true /\
  r = mkResp 200 (lit "OK") (shape rq (tagged_to rq 200 tag) (match b with Some x => print_N (blen x) | None => lit "0" end)
        (contact_line s :: match b with Some _ => [ln "Content-Type" (lit "application/sdp")] | None => [] end)) (body_bytes b).
Proof.
  intros s rq b tag r H. unfold create_ok in H. destruct (sdp_ok b); [|discriminate]. cbn [negb] in H. split; [reflexivity|].
  destruct (create_response _ _ _ _) as [r0|] eqn:E0; [|discriminate]. cbn [obind] in H. apply create_inv in E0. destruct E0 as [_ ->].
  destruct (push_line _ _) as [r1|] eqn:E1; [|discriminate]. cbn [obind] in H. apply push_line_inv in E1. cbn [p_headers p_code p_reason p_body] in E1. subst r1.
  rewrite shape_snoc in H. cbn [app] in H. destruct (retag _ _) as [r2|] eqn:E2; [|discriminate]. cbn [obind] in H.
  apply retag_same in E2; [|now repeat constructor|now left]. subst r2. destruct (with_sdp _ _) as [r3|] eqn:E3; [|discriminate]. cbn [obind] in H. injection H as <-.
  apply with_sdp_inv in E3. rewrite E3. now destruct b.
Qed.

Definition seven : list string := ["Via"; "From"; "Call-ID"; "CSeq"; "To"; "Record-Route"; "Content-Length"]%string.
Lemma shape_mirrors : forall rq to cl extra c t b, (forall n, In n seven -> unnamed (lit n) extra) -> mirrors rq (mkResp c t (shape rq to cl extra) b).
Proof.
  intros rq to cl extra c t b H. unfold mirrors. cbn [p_headers].
  destruct (shape_values rq to cl extra) as (A & B & C & D & E & _); try (apply H; cbn; tauto). now repeat split.
Qed.
Lemma shape_sized : forall rq to cl extra c t b, (forall n, In n seven -> unnamed (lit n) extra) -> cl = print_N (llen b) -> sized (mkResp c t (shape rq to cl extra) b).
Proof.
  intros rq to cl extra c t b H ->. unfold sized. cbn [p_headers p_body].
  destruct (shape_values rq to (print_N (llen b)) extra) as (_ & _ & _ & _ & _ & _ & A); try (apply H; cbn; tauto). exact A.
Qed.
Lemma shape_to : forall (bare : bool) rq cl extra c t b code tag, (forall n, In n seven -> unnamed (lit n) extra) -> (code =? 100 = bare) ->
  to_of bare rq tag (mkResp c t (shape rq (tagged_to rq code tag) cl extra) b).
Proof.
  intros bare rq cl extra c t b code tag H Hc. unfold to_of. cbn [p_headers].
  destruct (shape_values rq (tagged_to rq code tag) cl extra) as (_ & _ & _ & _ & _ & A & _); try (apply H; cbn; tauto). rewrite A. clear A.
  unfold tagged_to. rewrite first_get. unfold first_value. destruct (values "To" (q_headers rq)) as [|x l]; [reflexivity|]. eexists. split; [reflexivity|]. rewrite Hc.
  destruct bare; [reflexivity|]. unfold to_tagged, with_tag. destruct (contains (lit ";tag=") x) eqn:E.
  - left. split; [now apply contains_spec|reflexivity].
  - right. split; [now apply contains_not|reflexivity].
Qed.
Lemma made_some : forall o r, made o = Ret (Some r) -> o = Ret r.
Proof. intros [x|] r H; [|discriminate]. cbn in H. congruence. Qed.
Lemma reject_inv : forall rq c t tag r, reject rq c t tag = Ret r -> c =? 100 = false -> status_fits c t /\ r = mkResp c t (shape rq (tagged_to rq c tag) (lit "0") []) [].
Proof.
  intros rq c t tag r H Hc. unfold reject in H. destruct (create_response rq c t tag) as [r0|] eqn:E; [|discriminate]. cbn [obind] in H. apply create_inv in E. destruct E as [F ->].
  split; [exact F|]. apply retag_same in H; [exact H|constructor|now left].
Qed.
Lemma shape_extra : forall rq to cl extra n, ~ In (lower (lit n)) (map (fun k => lower (lit k)) seven) -> values n (shape rq to cl extra) = values n extra.
Proof.
  intros rq to cl extra n H.
  assert (X : forall k, In k seven -> eq_ic (lit k) (lit n) = false).
  { intros k Hk. unfold eq_ic. apply not_true_is_false. intros E. apply str_eqb_spec in E. apply H. rewrite <- E. apply in_map_iff. now exists k. }
  unfold values, shape. rewrite !get_all_app.
  rewrite (unnamed_get (lit n) (front rq)) by (apply front_unnamed; apply X; cbn; tauto). rewrite (unnamed_get _ (opt_line "To" to)) by (apply unnamed_opt, X; cbn; tauto).
  rewrite (unnamed_get _ (rr_lines rq)) by (apply rr_unnamed, X; cbn; tauto). cbn [app]. unfold ln. apply get_no. apply X. cbn. tauto.
Qed.
Ltac seven_ok := let n := fresh in let H := fresh in intros n H; cbn in H;
  repeat (destruct H as [<- | H]; [repeat constructor|]); try destruct H.
Lemma reply_answers : forall s rq tag y r, make s rq tag y = Ret (Some r) -> (forall c t, y = YReject c t -> c <> 100) -> answers s rq tag y r.
Proof.
  intros s rq tag y r H Hy.
  assert (P : forall c t r, create_response rq c t tag = Ret r -> forall y, status_wanted y = (c, t) -> reply_body y = [] -> bare y = (c =? 100) -> reply_headers s y = [] -> answers s rq tag y r).
  { intros c t r0 E y0 S B R X. apply create_inv in E. destruct E as [_ ->]. unfold answers. rewrite S, B, R, X. cbn [p_code p_reason p_body].
    split; [reflexivity|]. split; [reflexivity|]. split; [apply shape_mirrors; seven_ok|]. split; [apply shape_to; [seven_ok|reflexivity]|]. split; [apply shape_sized; [seven_ok|reflexivity]|]. intros n v []. }
  assert (J : forall c t r, reject rq c t tag = Ret r -> c <> 100 -> forall y, status_wanted y = (c, t) -> reply_body y = [] -> bare y = false -> reply_headers s y = [] -> answers s rq tag y r).
  { intros c t r0 E Hc y0 S B R X. apply reject_inv in E; [|lia]. destruct E as [_ ->]. unfold answers. rewrite S, B, R, X. cbn [p_code p_reason p_body].
    split; [reflexivity|]. split; [reflexivity|]. split; [apply shape_mirrors; seven_ok|]. split; [apply shape_to; [seven_ok|lia]|]. split; [apply shape_sized; [seven_ok|reflexivity]|]. intros n v []. }
  destruct y as [c t|c t| | |b| |e| | | | | |n]; cbn [make] in H; try apply made_some in H; unfold create_trying, plain_ok, create_busy, create_decline, create_request_terminated, create_bad_request in H.
  - eapply P; [exact H|reflexivity..].
  - eapply J; [exact H|exact (Hy c t eq_refl)|reflexivity..].
  - eapply P; [exact H|reflexivity..].
  - change (reject rq 180 (lit "Ringing") tag = Ret r) in H. eapply J; [exact H|discriminate|reflexivity..].
  - apply create_ok_inv in H. destruct H as [_ ->]. unfold answers. cbn [p_code p_reason p_body status_wanted bare].
    split; [reflexivity|]. split; [now destruct b|]. split; [apply shape_mirrors; destruct b; seven_ok|]. split; [apply shape_to; [destruct b; seven_ok|reflexivity]|].
    split; [apply shape_sized; [destruct b; seven_ok|destruct b as [b|]; [cbn [body_bytes]; now rewrite llen_utf8|reflexivity]]|]. intros n v Hn. cbn [p_headers].
    cbn [reply_headers In] in Hn. destruct Hn as [E | Hn].
    + injection E as <- <-. rewrite shape_extra by (cbn; intuition discriminate). destruct b; reflexivity.
    + destruct b; [|destruct Hn]. destruct Hn as [E | []]. injection E as <- <-. rewrite shape_extra by (cbn; intuition discriminate). reflexivity.
  - eapply P; [exact H|reflexivity..].
  - unfold accept_publish in H. destruct e as [e|]; [destruct (etag_ok e); [|discriminate]|]; cbn [negb] in H; unfold plain_ok in H.
    + destruct (create_response _ _ _ _) as [r0|] eqn:E0; [|discriminate]. cbn [obind] in H. destruct (push_line _ _) as [r1|] eqn:E1; [|discriminate]. cbn [obind] in H. injection H as <-.
      apply push_line_inv in E1. apply create_inv in E0. destruct E0 as [_ ->]. cbn [p_headers p_code p_reason p_body] in E1. rewrite shape_snoc in E1. cbn [app] in E1. subst r1.
      unfold answers. cbn [p_code p_reason p_body status_wanted bare].
      split; [reflexivity|]. split; [reflexivity|]. split; [apply shape_mirrors; seven_ok|]. split; [apply shape_to; [seven_ok|reflexivity]|].
      split; [apply shape_sized; [seven_ok|reflexivity]|]. intros n v Hn. cbn [p_headers]. destruct Hn as [E | []]. injection E as <- <-. rewrite shape_extra by (cbn; intuition discriminate). reflexivity.
    + destruct (create_response _ _ _ _) as [r0|] eqn:E0; [|discriminate]. cbn [obind] in H. injection H as <-. eapply P; [exact E0|reflexivity..].
  - unfold accept_options, plain_ok in H. destruct (create_response _ _ _ _) as [r0|] eqn:E0; [|discriminate]. cbn [obind] in H. apply create_inv in E0. destruct E0 as [_ ->].
    destruct (set_line _ _) as [r1|] eqn:E1; [|discriminate]. cbn [obind] in H. unfold ln in E1, H. apply set_line_inv in E1. cbn [p_headers p_code p_reason p_body] in E1. destruct E1 as (hs & -> & E1).
    rewrite set_extra_shape in E1 by (cbn; intuition discriminate). cbn [set_first] in E1. destruct E1 as [E1 | [_ ->]]; [discriminate|].
    apply set_line_inv in H. cbn [p_headers p_code p_reason p_body] in H. destruct H as (hs & -> & E1). rewrite shape_snoc in E1. cbn [app] in E1.
    rewrite set_extra_shape in E1 by (cbn; intuition discriminate).
    match type of E1 with context [match ?x with Some _ => _ | None => _ end] => change x with (@None headers) in E1 end.
    destruct E1 as [E1 | [_ ->]]; [discriminate|]. rewrite shape_snoc. cbn [app].
    unfold answers. cbn [p_code p_reason p_body status_wanted bare].
    split; [reflexivity|]. split; [reflexivity|]. split; [apply shape_mirrors; seven_ok|]. split; [apply shape_to; [seven_ok|reflexivity]|].
    split; [apply shape_sized; [seven_ok|reflexivity]|]. intros n v Hn. cbn [p_headers]. destruct Hn as [E | [E | []]]; injection E as <- <-; rewrite shape_extra by (cbn; intuition discriminate); reflexivity.
  - eapply J; [exact H|discriminate|reflexivity..].
  - eapply J; [exact H|discriminate|reflexivity..].
  - eapply J; [exact H|discriminate|reflexivity..].
  - eapply J; [exact H|discriminate|reflexivity..].
  - unfold create_422 in H. destruct (create_response _ _ _ _) as [r0|] eqn:E0; [|discriminate]. cbn [obind] in H. destruct (push_line _ _) as [r1|] eqn:E1; [|discriminate]. cbn [obind] in H.
    apply push_line_inv in E1. apply create_inv in E0. destruct E0 as [_ ->]. cbn [p_headers p_code p_reason p_body] in E1. rewrite shape_snoc in E1. cbn [app] in E1. subst r1.
    apply retag_same in H; [|repeat constructor|now left]. subst r.
    unfold answers. cbn [p_code p_reason p_body status_wanted bare].
    split; [reflexivity|]. split; [reflexivity|]. split; [apply shape_mirrors; seven_ok|]. split; [apply shape_to; [seven_ok|reflexivity]|].
    split; [apply shape_sized; [seven_ok|reflexivity]|]. intros k v Hn. cbn [p_headers]. destruct Hn as [E | []]. injection E as <- <-. rewrite shape_extra by (cbn; intuition discriminate). reflexivity.
Qed.
