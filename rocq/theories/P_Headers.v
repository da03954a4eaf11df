(** Properties C53 (header collections) and C57 (methods). *)
From Coq Require Import Arith NArith Bool List Lia ZifyBool ZifyN ZifyNat.
Import ListNotations.
From Verif Require Import Base BaseFacts Headers HeadersProofs Method.
Open Scope N_scope.

(** C53: whatever calls built it, a collection has at most 200 headers, each
    with a non-empty token name of at most 128 bytes and a value of at most
    8192 bytes without CR, LF or NUL. *)
Theorem C53_limits : forall ops hs, hrun [] ops = Some hs ->
  (length hs <= 200)%nat
  /\ forall n v, In (n, v) hs ->
       n <> [] /\ blen n <= 128 /\ (forall c, In c n -> header_name_char c = true)
       /\ blen v <= 8192 /\ ~ In 13 v /\ ~ In 10 v /\ ~ In 0 v.
Proof.
  intros ops hs H.
  assert (Hg : good_headers hs).
  { apply (hrun_good ops []); [|exact H]. split; [constructor|]. rewrite llen_nil. lia. }
  destruct Hg as [Hg Hl]. split; [unfold llen in Hl; lia|].
  intros n v Hin. rewrite Forall_forall in Hg. destruct (Hg _ Hin) as [H1 [H2 [H3 H4]]].
  cbn in *. rewrite Forall_forall in H3. auto.
Qed.
Print Assumptions C53_limits.
Example C53_example :
  hrun [] [HPush (lit "Via") (lit "a"); HPush (lit "bad name") (lit "b"); HSetOrPush (lit "via") (lit "c");
           HPush (lit "X") [13; 10]]
  = Some [(lit "Via", lit "c")].
Proof. reflexivity. Qed.

(** C53: a successful push appends at the end and nothing else changes. *)
Theorem C53_push_appends : forall hs n v hs', hpush hs n v = Ok hs' -> hs' = hs ++ [(n, v)].
Proof.
  intros hs n v hs' H. unfold hpush in H. destruct (MAX_HEADERS <=? llen hs); [discriminate|].
  destruct (header_new n v) as [h|] eqn:E; [|discriminate]. injection H as <-.
  apply header_new_ok in E. destruct E as [-> _]. reflexivity.
Qed.
Print Assumptions C53_push_appends.

(** C53: set_or_push replaces the value of the first header of that name in
    place (its spelling is kept), or appends. *)
Theorem C53_set_or_push_in_place : forall hs n v hs', hset_or_push hs n v = Ok hs' ->
  (exists a n' v' b, hs = a ++ (n', v') :: b /\ hs' = a ++ (n', v) :: b
      /\ lower n' = lower n /\ forall h, In h a -> lower (fst h) <> lower n)
  \/ (hs' = hs ++ [(n, v)] /\ forall h, In h hs -> lower (fst h) <> lower n).
Proof.
  intros hs n v hs' H. unfold hset_or_push in H.
  destruct (validate_header_name n); [discriminate|].
  destruct (validate_header_value v); [discriminate|].
  assert (Hno : forall l, existsb (fun h => name_eq h n) l = false ->
                forall h, In h l -> lower (fst h) <> lower n).
  { intros l Hl h Hh He. rewrite <- not_true_iff_false in Hl. apply Hl.
    apply existsb_exists. exists h. split; [assumption|]. apply eq_ic_spec. exact He. }
  pose proof (set_first_spec n v hs) as S. destruct (set_first n v hs) as [hs''|].
  - injection H as <-. destruct S as [a [n' [v' [b [-> [-> [He Hn]]]]]]]. left.
    exists a, n', v', b. apply eq_ic_spec in He. repeat split; auto. now apply Hno.
  - destruct (MAX_HEADERS <=? llen hs); [discriminate|]. injection H as <-. right.
    split; [reflexivity|]. now apply Hno.
Qed.
Print Assumptions C53_set_or_push_in_place.

(** C53: lookup returns the first header whose name matches ignoring case. *)
Theorem C53_get_first : forall name hs v, hget name hs = Some v <->
  exists a n b, hs = a ++ (n, v) :: b /\ lower n = lower name
                /\ forall h, In h a -> lower (fst h) <> lower name.
Proof.
  intros name hs v. rewrite hget_some. split; intros [a [n [b [H1 [H2 H3]]]]]; exists a, n, b;
    (split; [assumption|]); (split; [now apply eq_ic_spec|]); intros h Hh.
  - intros He. apply eq_ic_spec in He. rewrite (H3 h Hh) in He. discriminate.
  - destruct (eq_ic (fst h) name) eqn:E; [|reflexivity]. apply eq_ic_spec in E. now elim (H3 h Hh).
Qed.
Print Assumptions C53_get_first.
(** C53: remove deletes exactly the headers of that name, in order. *)
Theorem C53_remove : forall name hs h,
  (In h (hremove name hs) <-> In h hs /\ lower (fst h) <> lower name)
  /\ hget name (hremove name hs) = None.
Proof.
  intros name hs h. unfold hremove. split.
  - rewrite filter_In. unfold name_eq. split; intros [H1 H2]; (split; [assumption|]).
    + intros He. apply eq_ic_spec in He. rewrite He in H2. discriminate.
    + destruct (eq_ic (fst h) name) eqn:E; [|reflexivity]. apply eq_ic_spec in E. now elim H2.
  - apply hget_none. unfold hcontains. destruct (existsb _ _) eqn:E; [|reflexivity].
    apply existsb_exists in E. destruct E as [x [Hx Hn]]. apply filter_In in Hx.
    destruct Hx as [_ Hx]. rewrite Hn in Hx. discriminate.
Qed.
Print Assumptions C53_remove.

(** ** C57 *)
Lemma upper_c_idem : forall c, upper_c (upper_c c) = upper_c c.
Proof.
  intros c. unfold upper_c, is_lower, in_range.
  destruct ((97 <=? c) && (c <=? 122)) eqn:E; [|rewrite E; reflexivity].
  destruct ((97 <=? c - 32) && (c - 32 <=? 122)) eqn:E2; [lia|reflexivity].
Qed.
Lemma upper_idem : forall s, upper (upper s) = upper s.
Proof. intros. unfold upper. rewrite map_map. apply map_ext. apply upper_c_idem. Qed.
Lemma lower_upper_c : forall c, lower_c (upper_c c) = lower_c c.
Proof.
  intros c. unfold lower_c, upper_c, is_lower, is_upper, in_range.
  destruct ((97 <=? c) && (c <=? 122)) eqn:E; [|reflexivity].
  destruct ((65 <=? c - 32) && (c - 32 <=? 90)) eqn:E2; [|lia].
  destruct ((65 <=? c) && (c <=? 90)) eqn:E3; lia.
Qed.
Lemma lower_upper : forall s, lower (upper s) = lower s.
Proof. intros. unfold lower, upper. rewrite map_map. apply map_ext. apply lower_upper_c. Qed.
Lemma find_ext_eq : forall A (f g : A -> bool) l, (forall x, f x = g x) -> find f l = find g l.
Proof. intros A f g l H. induction l; cbn; [reflexivity|]. rewrite H, IHl. reflexivity. Qed.
Lemma method_char_upper : forall c, method_char c = true -> method_char (upper_c c) = true.
Proof.
  intros c H. unfold upper_c. destruct (is_lower c) eqn:E; [|exact H].
  unfold method_char, is_alnum, is_alpha, is_upper, is_lower, in_range in *.
  apply orb_true_iff. left. lia.
Qed.
Lemma blen_upper : forall s, blen (upper s) = blen s.
Proof.
  induction s as [|c s IH]; [reflexivity|]. cbn [upper map blen]. fold (upper s). rewrite IH. f_equal.
  unfold upper_c, is_lower, in_range. destruct ((97 <=? c) && (c <=? 122)) eqn:E; [|reflexivity].
  unfold len_utf8. destruct (c - 32 <? 128) eqn:E1; [|lia]. destruct (c <? 128) eqn:E2; lia.
Qed.
Lemma validate_token_spec : forall t, validate_method_token t = None <->
  t <> [] /\ blen t <= 32 /\ forallb method_char t = true.
Proof.
  intros t. unfold validate_method_token, MAX_METHOD_LENGTH.
  destruct t as [|c t]; [split; [discriminate|intros [H _]; now elim H]|].
  set (s := c :: t). destruct (32 <? blen s) eqn:E1; [split; [discriminate|intros [_ [H _]]; lia]|].
  destruct (existsb is_ascii_control s) eqn:E2.
  - split; [discriminate|]. intros [_ [_ H]]. apply existsb_exists in E2. destruct E2 as [x [Hx Hc]].
    rewrite forallb_forall in H. apply H in Hx.
    assert (header_name_char x = true) by exact Hx.
    rewrite (token_char_not_control x) in Hc by assumption. discriminate.
  - destruct (forallb method_char s) eqn:E3; split; intros; try discriminate; auto.
    + split; [discriminate|]. split; [lia|reflexivity].
    + destruct H as [_ [_ H]]. congruence.
Qed.

(** C57: printing a parsed method and parsing again gives the same method. *)
Theorem C57_roundtrip : forall t m, method_from_token t = Ok m ->
  method_from_token (method_str m) = Ok m.
Proof.
  intros t m H. unfold method_from_token in H.
  destruct (find (fun m0 => eq_ic t (method_str m0)) standard_methods) as [m0|] eqn:E.
  - injection H as <-. apply find_some in E. destruct E as [Hin _].
    repeat (destruct Hin as [<-|Hin]; [vm_compute; reflexivity|]). destruct Hin.
  - destruct (validate_method_token t) eqn:Ev; [discriminate|]. injection H as <-.
    cbn [method_str]. unfold method_from_token.
    rewrite (find_ext_eq _ _ (fun m0 => eq_ic t (method_str m0)))
      by (intros x; unfold eq_ic; rewrite lower_upper; reflexivity).
    rewrite E. apply validate_token_spec in Ev. destruct Ev as [H1 [H2 H3]].
    assert (Hv : validate_method_token (upper t) = None).
    { apply validate_token_spec. split; [|split].
      - destruct t; [now elim H1|discriminate].
      - rewrite blen_upper. exact H2.
      - unfold upper. apply forallb_forall. intros x Hx. apply in_map_iff in Hx.
        destruct Hx as [y [<- Hy]]. apply method_char_upper. rewrite forallb_forall in H3. now apply H3. }
    rewrite Hv, upper_idem. reflexivity.
Qed.
Print Assumptions C57_roundtrip.
(** C57: parsed methods with the same token text are equal, and the text of a
    parsed method is the token up to ASCII case. *)
Theorem C57_token_determines : forall t1 t2 m1 m2,
  method_from_token t1 = Ok m1 -> method_from_token t2 = Ok m2 ->
  (method_str m1 = method_str m2 <-> m1 = m2) /\ lower (method_str m1) = lower t1.
Proof.
  intros t1 t2 m1 m2 H1 H2. split.
  - split; [|congruence]. intros He.
    apply C57_roundtrip in H1. apply C57_roundtrip in H2. rewrite He in H1. congruence.
  - unfold method_from_token in H1.
    destruct (find (fun m0 => eq_ic t1 (method_str m0)) standard_methods) as [m0|] eqn:E.
    + injection H1 as <-. apply find_some in E. destruct E as [_ E]. apply eq_ic_spec in E. congruence.
    + destruct (validate_method_token t1); [discriminate|]. injection H1 as <-. apply lower_upper.
Qed.
Print Assumptions C57_token_determines.
Example C57_example :
  method_from_token (lit "iNvItE") = Ok MInvite
  /\ method_from_token (lit "foo.Bar") = Ok (MUnknown (lit "FOO.BAR"))
  /\ method_from_token (lit "a b") = Err MInvalid.
Proof. vm_compute. auto. Qed.
