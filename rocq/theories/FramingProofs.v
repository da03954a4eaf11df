(** Proofs about stream framing. *)
From Coq Require Import Arith NArith Bool String List Lia.
From Coq Require Import ZifyBool ZifyN ZifyNat.
Import ListNotations.
From Verif Require Import Base BaseFacts Text TextFacts NumFacts Framing FramingSpec.
Open Scope N_scope.
Open Scope list_scope.

(** ** Leading CR and LF *)
Definition crlfb (c : N) : bool := (c =? 13) || (c =? 10).
Lemma consume_drop : forall n b, (List.length b <= n)%nat -> consume_leading_crlf b = drop_while crlfb b.
Proof.
  induction n as [|n IH]; intros b Hb; [destruct b; [reflexivity|cbn in Hb; lia]|].
  destruct b as [|c r]; [reflexivity|]. cbn [List.length] in Hb. cbn [drop_while consume_leading_crlf]. unfold crlfb at 1.
  destruct (c =? 13); cbn [orb].
  - destruct r as [|d r]; [reflexivity|]. cbn [List.length] in Hb. destruct (d =? 10) eqn:D.
    + rewrite IH by lia. cbn [drop_while]. unfold crlfb at 2. rewrite D, orb_true_r. reflexivity.
    + rewrite IH by (cbn; lia). reflexivity.
  - destruct (c =? 10); [apply IH; lia|reflexivity].
Qed.
Lemma consume_eq : forall b, consume_leading_crlf b = drop_while crlfb b.
Proof. intros b. now apply (consume_drop (List.length b)). Qed.
Lemma crlfs_bool : forall k, crlfs k <-> forallb crlfb k = true.
Proof.
  intros k. rewrite forallb_forall. unfold crlfs, crlfb. split; intros H c Hc; specialize (H c Hc); lia.
Qed.
Lemma drop_crlfs : forall k s, crlfs k -> consume_leading_crlf (k ++ s) = consume_leading_crlf s.
Proof.
  intros k s H. rewrite !consume_eq. apply crlfs_bool in H. induction k as [|c k IH]; [reflexivity|]. cbn [forallb] in H. apply andb_true_iff in H. destruct H as [A B].
  cbn [app drop_while]. rewrite A. auto.
Qed.
Lemma consume_split : forall b, exists k, b = k ++ consume_leading_crlf b /\ crlfs k /\ (consume_leading_crlf b = [] \/ starts (consume_leading_crlf b)).
Proof.
  intros b. rewrite consume_eq. induction b as [|c b IH].
  - exists []. split; [reflexivity|]. split; [intros x []|now left].
  - cbn [drop_while]. destruct (crlfb c) eqn:E.
    + destruct IH as (k & E1 & E2 & E3). exists (c :: k). split; [cbn [app]; now f_equal|]. split; [|exact E3]. intros x [<-|Hx]; [unfold crlfb in E; lia|auto].
    + exists []. split; [reflexivity|]. split; [intros x []|]. right. exists c, b. unfold crlfb in E. split; [reflexivity|]. lia.
Qed.
Lemma consume_starts : forall s, starts s -> consume_leading_crlf s = s.
Proof. intros s (c & r & -> & A & B). rewrite consume_eq. cbn [drop_while]. unfold crlfb. replace ((c =? 13) || (c =? 10)) with false by lia. reflexivity. Qed.
Lemma starts_app : forall s t, starts s -> starts (s ++ t).
Proof. intros s t (c & r & -> & H). exists c, (r ++ t). auto. Qed.
Lemma consume_app : forall b c, consume_leading_crlf (consume_leading_crlf b ++ c) = consume_leading_crlf (b ++ c).
Proof.
  intros b c. destruct (consume_split b) as (k & E & K & S). transitivity (consume_leading_crlf (k ++ (consume_leading_crlf b ++ c))); [symmetry; now apply drop_crlfs|]. rewrite app_assoc, <- E. reflexivity.
Qed.

(** ** The first blank line *)
Lemma find_head : forall s h t, find_sub BLANK_LINE s = Some (h, t) <-> head_of s h t.
Proof.
  assert (FF : forall p s a b, find_sub p s = Some (a, b) -> forall a' b', s = a' ++ p ++ b' -> (List.length a <= List.length a')%nat).
  { induction s as [|c s IH]; intros a b H a' b' E.
    - destruct p; cbn in H; [injection H as <- <-; cbn; lia|discriminate].
    - cbn [find_sub] in H. destruct (strip_prefix p (c :: s)) as [r|] eqn:S; [injection H as <- <-; cbn; lia|].
      destruct (find_sub p s) as [[x y]|] eqn:F; [|discriminate]. injection H as <- <-. destruct a' as [|c' a'].
      + cbn [app] in E. rewrite E, strip_prefix_app in S. discriminate.
      + cbn [app] in E. injection E as -> E. cbn [List.length]. apply le_n_S. now apply (IH x y eq_refl a' b'). }
  intros s h t. split.
  - intros H. split; [now apply find_sub_some in H|]. intros a b E. pose proof (FF _ _ _ _ H a b E). unfold llen. lia.
  - intros [E M]. destruct (find_sub BLANK_LINE s) as [[a b]|] eqn:F.
    + pose proof (FF _ _ _ _ F h t E) as L1. pose proof (find_sub_some _ _ _ _ F) as E2. specialize (M a b E2). unfold llen in M.
      assert (L : List.length a = List.length h) by lia. rewrite E in E2.
      assert (X : forall (x y u v : list N), List.length x = List.length y -> x ++ u = y ++ v -> x = y /\ u = v).
      { clear. induction x as [|c x IH]; intros [|d y] u v L E; try discriminate; [auto|]. cbn [app] in E. injection E as -> E. injection L as L. destruct (IH _ _ _ L E) as [-> ->]. auto. }
      destruct (X a h _ _ L (eq_sym E2)) as [-> E3]. apply app_inv_head in E3. subst b. reflexivity.
    + exfalso. apply (proj1 (find_sub_none _ _) F h t). exact E.
Qed.
Lemma head_app : forall s h t c, head_of s h t -> head_of (s ++ c) h (t ++ c).
Proof.
  intros s h t c [E M]. split; [rewrite E, <- !app_assoc; reflexivity|]. intros a b E2.
  destruct (N.le_gt_cases (llen h) (llen a)) as [L|L]; [exact L|exfalso].
  (* the earlier blank line would lie inside [s] *)
  assert (Ls : (List.length (a ++ BLANK_LINE) <= List.length s)%nat).
  { rewrite E, !app_length. unfold llen in L. cbn [BLANK_LINE List.length]. lia. }
  assert (X : exists b', s = (a ++ BLANK_LINE) ++ b').
  { revert Ls E2. rewrite app_assoc. generalize (a ++ BLANK_LINE). clear. intros p. revert s. induction p as [|x p IH]; intros s Ls E; [now exists s|].
    destruct s as [|y s]; [cbn in Ls; lia|]. cbn [app] in E. injection E as -> E. cbn [List.length] in Ls. destruct (IH s ltac:(lia) E) as (b' & ->). now exists b'. }
  destruct X as (b' & X). rewrite <- app_assoc in X. specialize (M a b' X). lia.
Qed.

(** ** Content-Length *)
Lemma usize_from : forall v acc n, acc <= u64_max -> (ascii_usize_from acc v = Some n <->
  all_digits v = true /\ fold_left (fun acc c => acc * 10 + (c - 48)) v acc = n /\ n <= u64_max).
Proof.
  assert (MONO : forall v acc, acc <= fold_left (fun acc c => acc * 10 + (c - 48)) v acc).
  { induction v as [|c v IH]; intros acc; cbn [fold_left]; [lia|]. specialize (IH (acc * 10 + (c - 48))). lia. }
  induction v as [|c v IH]; intros acc n Ha; cbn [ascii_usize_from fold_left].
  - split; [intros [= <-]; auto|intros (_ & -> & _); reflexivity].
  - unfold all_digits. cbn [forallb]. destruct (is_digit c); cbn [negb andb].
    + specialize (MONO v (acc * 10 + (c - 48))).
      destruct (u64_max <? acc * 10) eqn:O1; [split; [discriminate|intros (_ & <- & X); lia]|].
      destruct (u64_max <? acc * 10 + (c - 48)) eqn:O2; [split; [discriminate|intros (_ & <- & X); lia]|]. apply IH. lia.
    + split; [discriminate|intros (X & _); discriminate].
Qed.
Lemma usize_spec : forall v n, parse_ascii_usize v = Some n <-> digits v n /\ n <= u64_max.
Proof.
  intros v n. unfold parse_ascii_usize, digits. destruct v as [|c v].
  - split; [discriminate|]. intros [(X & _) _]. now elim X.
  - rewrite usize_from by (unfold u64_max; lia). unfold digits_value. split.
    + intros (A & B & C). split; [split; [discriminate|split; [exact A|exact B]]|exact C].
    + intros [(_ & A & B) C]. auto.
Qed.
Lemma space_bool : forall c, space c <-> ascii_ws c = true.
Proof. intros c. unfold space, ascii_ws. lia. Qed.
Lemma padded_trim : forall t s, padded t s -> no_edge ascii_ws t -> t <> [] -> trim_ascii s = t.
Proof.
  intros t s (a & b & -> & A & B) E Hn. unfold trim_ascii, trim_by, trim_start_by.
  assert (D : drop_while ascii_ws (a ++ t ++ b) = t ++ b).
  { induction a as [|c a IH]; [cbn [app]; destruct t as [|c t]; [now elim Hn|]; cbn [app drop_while]; destruct E as [E _]; rewrite E; reflexivity|].
    cbn [app drop_while]. rewrite (proj1 (space_bool c) (A c (or_introl eq_refl))). apply IH. intros x Hx. apply A. now right. }
  rewrite D. rewrite trim_end_by_rev.
  assert (D2 : drop_while ascii_ws (rev (t ++ b)) = rev t).
  { rewrite rev_app_distr. assert (B' : forall c, In c (rev b) -> space c) by (intros c Hc; apply B; now apply in_rev).
    induction (rev b) as [|c l IH]; [cbn [app]; destruct E as [_ E]; destruct (rev t) as [|c l]; [reflexivity|]; cbn [drop_while]; rewrite E; reflexivity|].
    cbn [app drop_while]. rewrite (proj1 (space_bool c) (B' c (or_introl eq_refl))). apply IH. intros x Hx. apply B'. now right. }
  rewrite D2. apply rev_involutive.
Qed.
Lemma trim_padded : forall s, padded (trim_ascii s) s.
Proof.
  intros s. destruct (trim_by_sub ascii_ws s) as (a & b & E & A & B). exists a, b. split; [exact E|].
  rewrite forallb_forall in A, B. split; intros c Hc; apply space_bool; auto.
Qed.
Lemma drop_cr : forall l, drop_last_cr l = match rev l with c :: r => if c =? 13 then rev r else l | [] => [] end.
Proof.
  induction l as [|c l IH]; [reflexivity|]. destruct l as [|d l].
  - cbn [drop_last_cr rev app]. destruct (c =? 13); reflexivity.
  - change (drop_last_cr (c :: d :: l)) with (c :: drop_last_cr (d :: l)). rewrite IH.
    change (rev (c :: d :: l)) with (rev (d :: l) ++ [c]). destruct (rev (d :: l)) as [|x r] eqn:R.
    + exfalso. apply (f_equal (@List.length N)) in R. rewrite rev_length in R. discriminate.
    + cbn [app]. destruct (x =? 13); [|reflexivity]. rewrite rev_app_distr. reflexivity.
Qed.
Lemma drop_cr_cases : forall l, l = drop_last_cr l \/ l = drop_last_cr l ++ [13].
Proof.
  intros l. rewrite drop_cr. destruct (rev l) as [|c r] eqn:R; [left; rewrite <- (rev_involutive l), R; reflexivity|].
  destruct (c =? 13) eqn:E; [right|now left]. assert (c = 13) by lia. subst c. rewrite <- (rev_involutive l), R. reflexivity.
Qed.
Lemma drop_cr_snoc : forall l, drop_last_cr (l ++ [13]) = l.
Proof. intros l. rewrite drop_cr, rev_app_distr. cbn [rev app]. apply rev_involutive. Qed.

(** the loop reads a line as the specification does *)
Lemma name_edge_facts : forall n, lower n = lit "content-length" \/ lower n = lit "l" -> no_edge ascii_ws n /\ n <> [].
Proof.
  intros n H. assert (F : forallb (fun c => negb (ascii_ws c)) n = true).
  { assert (G : forallb (fun c => negb (ascii_ws c)) (lower n) = true) by (destruct H as [-> | ->]; vm_compute; reflexivity).
    clear H. induction n as [|c n IH]; [reflexivity|]. cbn [lower map forallb] in *. apply andb_true_iff in G. destruct G as [G1 G2]. rewrite IH by exact G2. rewrite andb_true_r.
    unfold lower_c, is_upper, in_range, ascii_ws in *. destruct ((65 <=? c) && (c <=? 90)) eqn:U; lia. }
  split; [now apply no_edge_all|]. intros ->. destruct H; discriminate.
Qed.
Lemma line_name : forall line name value n v, line_parts line name value -> padded n name -> (lower n = lit "content-length" \/ lower n = lit "l") ->
  split_once 58 (drop_last_cr line) = Some v -> fst v = name /\ (value = snd v \/ value = snd v ++ [13]).
Proof.
  intros line name value n [a b] [LP NC] P L H. apply mem_false in NC. destruct (drop_cr_cases line) as [E|E].
  - destruct LP as [LP|LP].
    + rewrite <- E, LP in H. cbn [lit app] in H. change (name ++ lit ":" ++ value) with (name ++ 58 :: value) in H. rewrite split_once_app in H by exact NC. injection H as <- <-. auto.
    + exfalso. rewrite LP in E. change (name ++ lit ":" ++ value ++ [13]) with (name ++ (58 :: value) ++ [13]) in E. rewrite app_assoc, drop_cr_snoc in E.
      apply (f_equal (@List.length N)) in E. rewrite app_length in E. cbn in E. lia.
  - apply split_once_some in H. destruct H as [H M]. rewrite H in E. cbn [fst snd]. destruct LP as [LP|LP].
    + change (name ++ lit ":" ++ value) with (name ++ 58 :: value) in LP. rewrite LP in E. rewrite <- app_assoc in E. cbn [app] in E.
      pose proof (split_once_app 58 name value NC) as S1. pose proof (split_once_app 58 a (b ++ [13]) M) as S2. rewrite E, S2 in S1. injection S1 as -> <-. auto.
    + change (name ++ lit ":" ++ value ++ [13]) with (name ++ 58 :: (value ++ [13])) in LP. rewrite LP in E. rewrite <- app_assoc in E. cbn [app] in E.
      pose proof (split_once_app 58 name (value ++ [13]) NC) as S1. pose proof (split_once_app 58 a (b ++ [13]) M) as S2. rewrite E, S2 in S1. injection S1 as -> S1.
      apply app_inj_tail in S1. destruct S1 as [-> _]. auto.
Qed.

Lemma digits_edge : forall d n, digits d n -> no_edge ascii_ws d /\ d <> [].
Proof.
  intros d n (Hn & A & _). split; [|exact Hn]. apply no_edge_all. unfold all_digits in A. rewrite forallb_forall in *. intros c Hc. specialize (A c Hc). unfold is_digit, in_range, ascii_ws in *. lia.
Qed.
Lemma value_spec : forall v n, (exists d, padded d v /\ digits d n) /\ n <= u64_max <-> parse_ascii_usize (trim_ascii v) = Some n.
Proof.
  intros v n. split.
  - intros [(d & P & D) L]. destruct (digits_edge d n D) as [E Hn]. rewrite (padded_trim d v P E Hn). apply usize_spec. auto.
  - intros H. apply usize_spec in H. destruct H as [D L]. split; [|exact L]. exists (trim_ascii v). split; [apply trim_padded|exact D].
Qed.
Lemma line_cases : forall l,
  ((forall v, ~ length_line l v) /\ forall f, content_length_line f l = Some f)
  \/ exists v0, length_line l v0 /\ (forall v, length_line l v -> v = v0 \/ v = v0 ++ [13])
     /\ forall f, content_length_line f l = match parse_ascii_usize (trim_ascii v0) with
                   | None => None
                   | Some p => match f with Some e => if e =? p then Some f else None | None => Some (Some p) end
                   end.
Proof.
  intros l. unfold content_length_line. destruct (split_once 58 (drop_last_cr l)) as [[n v]|] eqn:S.
  - destruct (negb (eq_ic (trim_ascii n) (lit "content-length")) && negb (eq_ic (trim_ascii n) (lit "l"))) eqn:E.
    + left. split; [|reflexivity]. intros w (name & m & LP & P & L). destruct (line_name l name w m (n, v) LP P L S) as [X _]. cbn [fst] in X. subst name.
      destruct (name_edge_facts m L) as [E1 E2]. rewrite (padded_trim m n P E1 E2) in E. unfold eq_ic in E. apply andb_true_iff in E. destruct E as [A B].
      destruct L as [L|L]; rewrite L in A, B; vm_compute in A, B; discriminate.
    + right. exists v. split; [|split; [|reflexivity]].
      * exists n, (trim_ascii n). apply split_once_some in S. destruct S as [S M]. split; [|split; [apply trim_padded|]].
        -- split; [|now apply mem_false]. destruct (drop_cr_cases l) as [X|X]; [left; rewrite X, S; reflexivity|right; rewrite X, S, <- app_assoc; reflexivity].
        -- destruct (eq_ic (trim_ascii n) (lit "content-length")) eqn:A; [left; apply eq_ic_spec in A; exact A|]. destruct (eq_ic (trim_ascii n) (lit "l")) eqn:B; [right; apply eq_ic_spec in B; exact B|discriminate].
      * intros w (name & m & LP & P & L). destruct (line_name l name w m (n, v) LP P L S) as [_ X]. exact X.
  - left. split; [|reflexivity]. intros w (name & m & [LP NC] & P & L). apply split_once_none in S. apply mem_false in S. apply S.
    assert (I : In 58 l) by (destruct LP as [-> | ->]; apply in_or_app; right; left; reflexivity).
    destruct (drop_cr_cases l) as [X|X]; [rewrite X in I; exact I|]. rewrite X in I. apply in_app_or in I. destruct I as [I|[I|[]]]; [exact I|discriminate].
Qed.
Lemma length_lines : forall ls f n, content_length_lines f ls = Some (Some n) <->
  (forall l v, In l ls -> length_line l v -> (exists d, padded d v /\ digits d n) /\ n <= u64_max)
  /\ (f = Some n \/ (f = None /\ exists l v, In l ls /\ length_line l v)).
Proof.
  induction ls as [|l ls IH]; intros f n; cbn [content_length_lines].
  - split.
    + intros [= ->]. split; [intros l v []|now left].
    + intros [_ [-> | [_ (l & v & [] & _)]]]. reflexivity.
  - destruct (line_cases l) as [[NL C]|(v0 & L0 & L1 & C)]; rewrite C.
    + rewrite IH. split.
      * intros [A B]. split; [intros l' v [<-|Hl] H; [elim (NL v H)|eauto]|]. destruct B as [B|[B (l' & v & Hl & H)]]; [now left|right]. split; [exact B|]. exists l', v. split; [now right|exact H].
      * intros [A B]. split; [intros l' v Hl H; apply (A l' v); [now right|exact H]|]. destruct B as [B|[B (l' & v & [<-|Hl] & H)]]; [now left|elim (NL v H)|right; eauto].
    + destruct (parse_ascii_usize (trim_ascii v0)) as [p|] eqn:P.
      * assert (V : forall v, length_line l v -> (exists d, padded d v /\ digits d p) /\ p <= u64_max).
        { intros v H. pose proof (proj2 (value_spec v0 p) P) as [(d & D1 & D2) D3]. split; [|exact D3]. exists d. split; [|exact D2].
          destruct (L1 v H) as [->| ->]; [exact D1|]. destruct D1 as (a & b & E & A & B). exists a, (b ++ [13]). split; [rewrite E, <- !app_assoc; reflexivity|]. split; [exact A|].
          intros c Hc. apply in_app_or in Hc. destruct Hc as [Hc|[<-|[]]]; [auto|]. unfold space. tauto. }
        assert (W : forall n, (exists d, padded d v0 /\ digits d n) /\ n <= u64_max -> n = p).
        { intros k H. apply value_spec in H. rewrite H in P. now injection P. }
        destruct f as [e|].
        -- destruct (e =? p) eqn:EP.
           ++ assert (e = p) by lia. subst e. rewrite IH. split.
              ** intros [A B]. destruct B as [B|[B _]]; [|discriminate]. injection B as <-. split; [|now left]. intros l' v [<-|Hl] H; eauto.
              ** intros [A B]. destruct B as [B|[B _]]; [|discriminate]. split; [intros l' v Hl H; apply (A l' v); [now right|exact H]|now left].
           ++ split; [discriminate|]. intros [A B]. destruct B as [B|[B _]]; [|discriminate]. injection B as ->. pose proof (W n (A l v0 (or_introl eq_refl) L0)). lia.
        -- rewrite IH. split.
           ++ intros [A B]. destruct B as [B|[B _]]; [|discriminate]. injection B as <-. split; [intros l' v [<-|Hl] H; eauto|]. right. split; [reflexivity|]. exists l, v0. split; [now left|exact L0].
           ++ intros [A B]. pose proof (W n (A l v0 (or_introl eq_refl) L0)). subst p. split; [intros l' v Hl H; apply (A l' v); [now right|exact H]|now left].
      * split; [discriminate|]. intros [A B]. pose proof (proj1 (value_spec v0 n) (A l v0 (or_introl eq_refl) L0)) as X. rewrite X in P. discriminate.
Qed.
Lemma declares_parse : forall head n, parse_content_length head = Some (Some n) <-> declares head n /\ n <= u64_max.
Proof.
  intros head n. unfold parse_content_length, declares. rewrite length_lines. split.
  - intros [A [B|[_ B]]]; [discriminate|]. destruct B as (l & v & Hl & H). split; [|exact (proj2 (A l v Hl H))]. split; [eauto|]. intros l' v' Hl' H'. exact (proj1 (A l' v' Hl' H')).
  - intros [[B A] L]. split; [|right; auto]. intros l v Hl H. split; [eauto|exact L].
Qed.

(** ** One frame *)
Lemma cut_at : forall (a b : list N) n, n = llen a -> firstn (N.to_nat n) (a ++ b) = a /\ skipn (N.to_nat n) (a ++ b) = b.
Proof.
  intros a b n ->. unfold llen. rewrite Nnat.Nat2N.id, firstn_app, skipn_app, Nat.sub_diag, firstn_all, skipn_all. cbn [firstn skipn]. rewrite app_nil_r. auto.
Qed.
Lemma starts_head : forall s h t, starts s -> head_of s h t -> forall t', starts (h ++ BLANK_LINE ++ t').
Proof.
  intros s h t (c & r & E & A & B) [E2 _] t'. destruct h as [|d h].
  - rewrite E2 in E. injection E as <- _. now elim A.
  - rewrite E2 in E. cbn [app] in E. injection E as -> _. exists c, (h ++ BLANK_LINE ++ t'). auto.
Qed.
Lemma head_cut : forall h body rest, head_of (h ++ BLANK_LINE ++ body ++ rest) h (body ++ rest) -> head_of (h ++ BLANK_LINE ++ body) h body.
Proof.
  intros h body rest [_ M]. split; [reflexivity|]. intros a b E. apply (M a (b ++ rest)). apply (f_equal (fun x => x ++ rest)) in E. rewrite <- !app_assoc in E. exact E.
Qed.
Lemma app_cons_app_nonnil : forall (h t : list N), h ++ BLANK_LINE ++ t <> [].
Proof. intros [|c h] t; discriminate. Qed.
Lemma next_unfold : forall buf b, consume_leading_crlf buf = b -> b <> [] -> next_frame buf =
      match find_sub BLANK_LINE b with
      | None => if MAX_HEADER_SIZE <? llen b then Bad else Wait b
      | Some (head, _) =>
          if MAX_HEADER_SIZE <? llen head then Bad
          else match parse_content_length head with
          | None => Bad
          | Some None => Bad
          | Some (Some cl) =>
              if MAX_STREAM_BODY <? cl then Bad
              else let needed := llen head + 4 + cl in
                   if llen b <? needed then Wait b
                   else Frame (firstn (N.to_nat needed) b) (skipn (N.to_nat needed) b)
          end
      end.
Proof. intros buf b E H. unfold next_frame. rewrite E. destruct b as [|c b]; [now elim H|]. reflexivity. Qed.
Lemma next_frame_spec : forall b f r, next_frame b = Frame f r <-> exists k, crlfs k /\ message f /\ b = k ++ f ++ r.
Proof.
  intros b f r. split.
  - intros H. destruct (consume_split b) as (k & E & K & S). destruct S as [S|S]; [unfold next_frame in H; rewrite S in H; discriminate|].
    exists k. split; [exact K|]. set (c := consume_leading_crlf b) in *. rewrite (next_unfold b c eq_refl) in H by (destruct S as (x & y & -> & _); discriminate).
    destruct (find_sub BLANK_LINE c) as [[head rest]|] eqn:F.
    2: { destruct (_ <? _) in H; discriminate. }
    destruct (MAX_HEADER_SIZE <? llen head) eqn:L1; [discriminate|]. destruct (parse_content_length head) as [[cl|]|] eqn:P; [|discriminate|discriminate].
    destruct (MAX_STREAM_BODY <? cl) eqn:L2; [discriminate|]. cbv zeta in H. destruct (llen c <? llen head + 4 + cl) eqn:L3; [discriminate|].
    apply find_head in F. pose proof F as [Ec _]. apply declares_parse in P. destruct P as [P _].
    assert (B : exists body rest', rest = body ++ rest' /\ llen body = cl).
    { exists (firstn (N.to_nat cl) rest), (skipn (N.to_nat cl) rest). split; [symmetry; apply firstn_skipn|]. rewrite Ec in L3. rewrite !llen_app in L3.
      change (llen BLANK_LINE) with 4 in L3. unfold llen in *. rewrite firstn_length. lia. }
    destruct B as (body & rest' & -> & Lb). rewrite Ec in H. rewrite !app_assoc in H. rewrite <- (app_assoc head BLANK_LINE) in H.
    destruct (cut_at ((head ++ BLANK_LINE ++ body)) rest' (llen head + 4 + cl)) as [C1 C2].
    { rewrite !llen_app, Lb. change (llen BLANK_LINE) with 4. lia. }
    rewrite <- (app_assoc head), C1, C2 in H || (rewrite <- !app_assoc in *; rewrite C1, C2 in H). injection H as <- <-.
    split.
    + split; [eapply starts_head; eauto|]. exists head, body. split; [|unfold MAX_HEADER_SIZE, MAX_STREAM_BODY in *; rewrite Lb; repeat split; try lia; exact (proj1 P) || exact (proj2 P)].
      rewrite Ec in F. eapply head_cut; exact F.
    + rewrite E. rewrite Ec. rewrite <- !app_assoc. reflexivity.
  - intros (k & K & (S & head & body & Hh & L1 & D & L2) & ->). pose proof (head_app f head body r Hh) as Hr.
    assert (Ec : consume_leading_crlf (k ++ f ++ r) = f ++ r) by (rewrite drop_crlfs by exact K; apply consume_starts; now apply starts_app).
    rewrite (next_unfold _ _ Ec) by (destruct S as (x & y & -> & _); discriminate).
    apply find_head in Hr. rewrite Hr. unfold MAX_HEADER_SIZE, MAX_STREAM_BODY. replace (65536 <? llen head) with false by lia.
    rewrite (proj2 (declares_parse head (llen body))) by (split; [exact D|unfold u64_max; lia]). replace (10485760 <? llen body) with false by lia. cbv zeta.
    destruct Hh as [Ef _]. assert (Lf : llen head + 4 + llen body = llen f) by (rewrite Ef, !llen_app; change (llen BLANK_LINE) with 4; lia).
    destruct (cut_at f r _ Lf) as [C1 C2]. rewrite C1, C2. replace (llen (f ++ r) <? _) with false by (rewrite llen_app; lia). reflexivity.
Qed.
Lemma next_wait_spec : forall b r, next_frame b = Wait r <-> exists k, crlfs k /\ waiting r /\ b = k ++ r.
Proof.
  intros b r. split.
  - intros H. destruct (consume_split b) as (k & E & K & S). exists k. split; [exact K|].
    destruct S as [S|S]; [unfold next_frame in H; rewrite S in *; injection H as <-; split; [now left|exact E]|].
    set (c := consume_leading_crlf b) in *. rewrite (next_unfold b c eq_refl) in H by (destruct S as (x & y & -> & _); discriminate).
    destruct (find_sub BLANK_LINE c) as [[head rest]|] eqn:F.
    + destruct (MAX_HEADER_SIZE <? llen head) eqn:L1; [discriminate|]. destruct (parse_content_length head) as [[cl|]|] eqn:P; [|discriminate|discriminate].
      destruct (MAX_STREAM_BODY <? cl) eqn:L2; [discriminate|]. cbv zeta in H. destruct (llen c <? llen head + 4 + cl) eqn:L3; [|discriminate]. injection H as <-.
      split; [|exact E]. right. split; [exact S|]. right. apply find_head in F. apply declares_parse in P. exists head, rest, cl. unfold MAX_HEADER_SIZE, MAX_STREAM_BODY in *.
      split; [exact F|]. split; [lia|]. split; [tauto|]. split; [lia|]. destruct F as [Ec _]. rewrite Ec, !llen_app in L3. change (llen BLANK_LINE) with 4 in L3. lia.
    + destruct (MAX_HEADER_SIZE <? llen c) eqn:L; [discriminate|]. injection H as <-. split; [|exact E]. right. split; [exact S|]. left. unfold MAX_HEADER_SIZE in L. split; [lia|].
      intros a t X. exact (proj1 (find_sub_none _ _) F a t X).
  - intros (k & K & W & ->). destruct W as [-> | [S W]].
    + unfold next_frame. rewrite drop_crlfs by exact K. reflexivity.
    + assert (Ec : consume_leading_crlf (k ++ r) = r) by (rewrite drop_crlfs by exact K; now apply consume_starts).
      rewrite (next_unfold _ _ Ec) by (destruct S as (x & y & -> & _); discriminate). unfold MAX_HEADER_SIZE, MAX_STREAM_BODY. destruct W as [[L W]|(head & part & n & Hh & L1 & D & L2 & L3)].
      * rewrite (proj2 (find_sub_none _ _)) by exact W. replace (65536 <? llen r) with false by lia. reflexivity.
      * pose proof Hh as Hf. apply find_head in Hf. rewrite Hf. replace (65536 <? llen head) with false by lia.
        rewrite (proj2 (declares_parse head n)) by (split; [exact D|unfold u64_max; lia]). replace (10485760 <? n) with false by lia. cbv zeta.
        destruct Hh as [Er _]. replace (llen r <? _) with true; [reflexivity|]. rewrite Er, !llen_app. change (llen BLANK_LINE) with 4. lia.
Qed.

(** ** All frames of a buffer *)
Definition prepend (fs : list (list N)) (o : option (list (list N) * list N)) : option (list (list N) * list N) :=
  match o with Some (gs, r) => Some (fs ++ gs, r) | None => None end.
Lemma frame_shorter : forall b f r, next_frame b = Frame f r -> (List.length r < List.length b)%nat.
Proof.
  intros b f r H. apply next_frame_spec in H. destruct H as (k & _ & ((c & x & -> & _) & _) & ->). rewrite !app_length. cbn [List.length]. lia.
Qed.
Lemma fuel_enough : forall k1 k2 b, (List.length b < k1)%nat -> (List.length b < k2)%nat -> drain_fuel k1 b = drain_fuel k2 b.
Proof.
  induction k1 as [|k1 IH]; intros [|k2] b H1 H2; try lia. cbn [drain_fuel]. destruct (next_frame b) as [f r|r|] eqn:E; [|reflexivity|reflexivity].
  apply frame_shorter in E. rewrite (IH k2 r) by lia. reflexivity.
Qed.
Lemma drain_frame : forall b f r, next_frame b = Frame f r -> drain_sip_frames b = prepend [f] (drain_sip_frames r).
Proof.
  intros b f r H. unfold drain_sip_frames. cbn [drain_fuel]. rewrite H. apply frame_shorter in H. rewrite (fuel_enough (List.length b) (S (List.length r)) r) by lia.
  unfold prepend. cbn [drain_fuel app]. destruct (match next_frame r with Frame _ _ => _ | Wait _ => _ | Bad => _ end) as [[gs r']|]; reflexivity.
Qed.
Lemma drain_wait : forall b r, next_frame b = Wait r -> drain_sip_frames b = Some ([], r).
Proof. intros b r H. unfold drain_sip_frames. cbn [drain_fuel]. now rewrite H. Qed.
Lemma drain_bad : forall b, next_frame b = Bad -> drain_sip_frames b = None.
Proof. intros b H. unfold drain_sip_frames. cbn [drain_fuel]. now rewrite H. Qed.
Lemma drain_spec : forall s fs r, drain_sip_frames s = Some (fs, r) <-> framed_stream s fs r.
Proof.
  assert (G : forall n s fs r, (List.length s <= n)%nat -> drain_sip_frames s = Some (fs, r) -> framed_stream s fs r).
    { induction n as [|n IH]; intros s fs0 r0 L H.
      - destruct s as [|c s]; [|cbn in L; lia]. cbn in H. injection H as <- <-. change (@nil N) with (@nil N ++ []) at 1. constructor; [intros c []|now left].
      - destruct (next_frame s) as [f r|r|] eqn:E.
        + rewrite (drain_frame _ _ _ E) in H. pose proof (frame_shorter _ _ _ E). destruct (drain_sip_frames r) as [[gs r']|] eqn:D; [|discriminate]. injection H as <- <-.
          apply next_frame_spec in E. destruct E as (k & K & M & ->). constructor; [exact K|exact M|]. apply IH; [lia|exact D].
        + rewrite (drain_wait _ _ E) in H. injection H as <- <-. apply next_wait_spec in E. destruct E as (k & K & W & ->). now constructor.
        + rewrite (drain_bad _ E) in H. discriminate. }
  intros s fs r. split.
  - intros H. now apply (G (List.length s)).
  - intros H0. induction H0 as [k r K W|k f s' fs r K M H IH].
    + apply drain_wait. apply next_wait_spec. eauto.
    + rewrite (drain_frame _ f s') by (apply next_frame_spec; eauto). rewrite IH. reflexivity.
Qed.
Lemma next_crlfs : forall k s, crlfs k -> next_frame (k ++ s) = next_frame s.
Proof. intros k s K. unfold next_frame. rewrite drop_crlfs by exact K. reflexivity. Qed.
Lemma drain_crlfs : forall k s, crlfs k -> drain_sip_frames (k ++ s) = drain_sip_frames s.
Proof.
  intros k s K. pose proof (next_crlfs k s K) as E. destruct (next_frame s) as [f r|r|] eqn:F.
  - now rewrite (drain_frame _ _ _ E), (drain_frame _ _ _ F).
  - now rewrite (drain_wait _ _ E), (drain_wait _ _ F).
  - now rewrite (drain_bad _ E), (drain_bad _ F).
Qed.
Lemma prepend_prepend : forall a b o, prepend a (prepend b o) = prepend (a ++ b) o.
Proof. intros a b [[gs r]|]; cbn [prepend]; [rewrite app_assoc|]; reflexivity. Qed.
Lemma drain_app : forall b fs r c, drain_sip_frames b = Some (fs, r) -> drain_sip_frames (b ++ c) = prepend fs (drain_sip_frames (r ++ c)).
Proof.
  intros b fs r c H. apply drain_spec in H. induction H as [k r K W|k f s fs r K M H IH].
  - rewrite <- app_assoc, drain_crlfs by exact K. destruct (drain_sip_frames (r ++ c)) as [[gs r']|]; reflexivity.
  - rewrite <- !app_assoc. rewrite (drain_frame _ f (s ++ c)) by (apply next_frame_spec; eauto). rewrite IH, prepend_prepend. reflexivity.
Qed.

(** ** Bounds *)
Lemma waiting_bound : forall r, waiting r -> llen r < 10551300.
Proof.
  intros r [->|[_ [[L _]|(h & p & n & [E _] & L1 & _ & L2 & L3)]]]; [cbn; lia|lia|]. rewrite E, !llen_app. change (llen BLANK_LINE) with 4. lia.
Qed.
Lemma framed_waiting : forall s fs r, framed_stream s fs r -> waiting r.
Proof. induction 1; auto. Qed.
Lemma framed_messages : forall s fs r, framed_stream s fs r -> Forall message fs.
Proof. induction 1; auto. Qed.

(** ** A prefix of a good stream is good *)
Lemma prefix_waiting : forall r1 c head part n, starts (r1 ++ c) -> head_of (r1 ++ c) head part -> llen head <= 65533 -> declares head n -> n <= 10485760 ->
  (llen part < n \/ (llen part = n /\ c <> [])) -> waiting r1.
Proof.
  intros r1 c head part n S [E M] L1 D L2 L3. destruct r1 as [|x r1]; [now left|]. right.
  assert (S1 : starts (x :: r1)) by (destruct S as (y & t & Ey & A & B); cbn [app] in Ey; injection Ey as -> _; exists y, r1; auto).
  split; [exact S1|]. set (q := x :: r1) in *. destruct (app_eq_app q c (head ++ BLANK_LINE) part) as (l & [[A B]|[A B]]); [rewrite E, <- app_assoc; reflexivity| |].
  - right. exists head, l, n. assert (Hq : head_of q head l).
    { split; [rewrite A, <- app_assoc; reflexivity|]. intros a b Eq. apply (M a (b ++ c)). rewrite Eq, <- !app_assoc. reflexivity. }
    split; [exact Hq|]. split; [lia|]. split; [exact D|]. split; [exact L2|]. rewrite B, llen_app in L3. destruct L3 as [L3|[L3 Hc]]; [lia|]. destruct c as [|y c]; [now elim Hc|]. rewrite llen_cons in L3. lia.
  - destruct l as [|y l].
    + (* exactly the head and the blank line *)
      rewrite app_nil_r in A. cbn [app] in B. right. exists head, [], n. split.
      * split; [rewrite app_nil_r; now rewrite A|]. intros a b Eq. apply (M a (b ++ c)). rewrite Eq, <- !app_assoc. reflexivity.
      * split; [lia|]. split; [exact D|]. split; [exact L2|]. change (llen (@nil N)) with 0. subst part. destruct L3 as [L3|[L3 Hc]]; [lia|]. destruct c as [|z c]; [now elim Hc|]. rewrite llen_cons in L3. lia.
    + left. assert (L : llen q < llen head + 4).
      { apply (f_equal llen) in A. rewrite !llen_app, llen_cons in A. change (llen BLANK_LINE) with 4 in A. lia. }
      split; [lia|]. intros a b Eq. pose proof (M a (b ++ c)) as Ma. rewrite Eq in Ma. rewrite <- !app_assoc in Ma. specialize (Ma eq_refl). rewrite Eq, !llen_app in L. change (llen BLANK_LINE) with 4 in L. lia.
Qed.
Lemma crlfs_app : forall a b, crlfs (a ++ b) <-> crlfs a /\ crlfs b.
Proof.
  intros a b. unfold crlfs. split.
  - intros H. split; intros c Hc; apply H; apply in_or_app; auto.
  - intros [A B] c Hc. apply in_app_or in Hc. destruct Hc; auto.
Qed.
Lemma prefix_good : forall s fs r, framed_stream s fs r -> Forall early_head fs -> early_head r ->
  forall b c, s = b ++ c -> exists fs' r', framed_stream b fs' r'.
Proof.
  induction 1 as [k r K W|k f s fs r K M H IH]; intros EF ER b c E.
  - destruct (app_eq_app k r b c E) as (l & [[A B]|[A B]]).
    + subst k. apply crlfs_app in K. exists [], []. rewrite <- (app_nil_r b). constructor; [tauto|now left].
    + subst b r. exists [], l. constructor; [exact K|]. destruct W as [W|[S W]]; [apply app_eq_nil in W; destruct W as [-> _]; now left|].
      destruct l as [|x l]; [now left|]. destruct W as [[L W]|(h & p & n & Hh & L1 & D & L2 & L3)].
      * right. split; [destruct S as (y & t & Ey & P & Q); cbn [app] in Ey; injection Ey as -> _; exists y, l; auto|]. left. rewrite llen_app in L. split; [lia|]. intros a b Eq. apply (W a (b ++ c)). rewrite Eq, <- !app_assoc. reflexivity.
      * apply (prefix_waiting _ c h p n); auto. now apply (ER h p).
  - inversion EF as [|? ? E1 E2]; subst. destruct (app_eq_app k (f ++ s) b c E) as (l & [[A B]|[A B]]).
    + subst k. apply crlfs_app in K. exists [], []. rewrite <- (app_nil_r b). constructor; [tauto|now left].
    + subst b. destruct (app_eq_app f s l c B) as (m & [[A2 B2]|[A2 B2]]).
      * destruct m as [|x m].
        -- rewrite app_nil_r in A2. cbn [app] in B2. subst l c. exists [f], []. replace (k ++ f) with (k ++ f ++ []) by (now rewrite app_nil_r). constructor; [exact K|exact M|]. change (@nil N) with (@nil N ++ []) at 1. constructor; [intros c []|now left].
        -- exists [], l. constructor; [exact K|]. destruct M as (S & h & body & Hh & L1 & D & L2). subst f. apply (prefix_waiting l (x :: m) h body (llen body)); auto; [now apply (E1 h body)|]. right. split; [reflexivity|discriminate].
      * subst l. destruct (IH E2 ER m c B2) as (fs' & r' & F). exists (f :: fs'), r'. now constructor.
Qed.

(** ** Sessions *)
Definition state_ok (cs : list (list N)) (s : session) : Prop :=
  if open s then drain_sip_frames (concat cs) = Some (delivered s, buffer s)
  else exists p q r, cs = p ++ q /\ drain_sip_frames (concat p) = Some (delivered s, r)
       /\ exists c q', q = c :: q' /\ drain_sip_frames (concat (p ++ [c])) = None.
Lemma concat_snoc : forall (cs : list (list N)) c, concat (cs ++ [c]) = concat cs ++ c.
Proof. intros cs c. rewrite concat_app. cbn [concat]. now rewrite app_nil_r. Qed.
Lemma run_snoc : forall cs c, run_session (cs ++ [c]) = read_chunk (run_session cs) c.
Proof. intros cs c. unfold run_session. rewrite fold_left_app. reflexivity. Qed.
Lemma run_ok : forall cs, state_ok cs (run_session cs).
Proof.
  intros cs. induction cs as [|c cs IH] using rev_ind; [reflexivity|]. rewrite run_snoc. unfold read_chunk. unfold state_ok in IH.
  destruct (open (run_session cs)) eqn:O; cbn [negb].
  - pose proof (framed_waiting _ _ _ (proj1 (drain_spec _ _ _) IH)) as W. apply waiting_bound in W. unfold MAX_BUFFER_SIZE. replace (16777216 <=? llen (buffer (run_session cs))) with false by lia.
    pose proof (drain_app _ _ _ c IH) as DA. rewrite <- concat_snoc in DA. destruct (drain_sip_frames (buffer (run_session cs) ++ c)) as [[fs rest]|] eqn:D; unfold state_ok; cbn [open delivered buffer].
    + rewrite DA. reflexivity.
    + exists cs, [c], (buffer (run_session cs)). split; [reflexivity|]. split; [exact IH|]. exists c, []. split; [reflexivity|]. exact DA.
  - unfold state_ok. rewrite O. destruct IH as (p & q & r & -> & D & c' & q' & -> & N0). exists p, (c' :: q' ++ [c]), r. split; [rewrite <- app_assoc; reflexivity|]. split; [exact D|]. exists c', (q' ++ [c]). auto.
Qed.
Lemma run_open : forall cs, open (run_session cs) = true -> framed_stream (concat cs) (delivered (run_session cs)) (buffer (run_session cs)).
Proof. intros cs H. pose proof (run_ok cs) as K. unfold state_ok in K. rewrite H in K. now apply drain_spec. Qed.
Lemma run_good : forall cs fs r, framed_stream (concat cs) fs r -> Forall early_head fs -> early_head r -> run_session cs = mkSession fs r true.
Proof.
  intros cs fs r H EF ER. assert (O : open (run_session cs) = true).
  { pose proof (run_ok cs) as K. unfold state_ok in K. destruct (open (run_session cs)); [reflexivity|]. destruct K as (p & q & r0 & E & _ & c & q' & -> & D).
    destruct (prefix_good _ _ _ H EF ER (concat (p ++ [c])) (concat q')) as (fs' & r' & F); [rewrite E, <- concat_app, <- app_assoc; reflexivity|].
    apply drain_spec in F. rewrite F in D. discriminate. }
  pose proof (run_open cs O) as K. apply drain_spec in K. apply drain_spec in H. rewrite H in K. injection K as -> ->. destruct (run_session cs); cbn in *. now subst.
Qed.
Lemma run_prefix : forall cs, exists p q r, cs = p ++ q /\ framed_stream (concat p) (delivered (run_session cs)) r.
Proof.
  intros cs. pose proof (run_ok cs) as K. unfold state_ok in K. destruct (open (run_session cs)).
  - exists cs, [], (buffer (run_session cs)). split; [now rewrite app_nil_r|now apply drain_spec].
  - destruct K as (p & q & r & E & D & _). exists p, q, r. split; [exact E|now apply drain_spec].
Qed.
Lemma framed_prefix : forall a fs r b gs t, framed_stream a fs r -> framed_stream (a ++ b) gs t -> exists hs, gs = fs ++ hs.
Proof.
  intros a fs r b gs t A B. apply drain_spec in A. apply drain_spec in B. rewrite (drain_app _ _ _ b A) in B. destruct (drain_sip_frames (r ++ b)) as [[hs t']|]; [|discriminate]. injection B as <- _. now exists hs.
Qed.
