(** Message summaries: what a reader makes of the text written (C158), and what a text
    that is accepted says (C159). *)
From Coq Require Import NArith Bool String List Lia ZifyBool ZifyN ZifyNat.
Import ListNotations.
From Verif Require Import Base BaseFacts Msg TypedFacts Mwi CpimSpec MwiSpec CpimProofs.
Open Scope N_scope.
Open Scope list_scope.

(** ** What can be built *)
Lemma mvalue_iff : forall v, mvalue_ok v = true <-> clean 1024 [] v.
Proof. intros v. unfold mvalue_ok. apply clean_iff. intros c. rewrite control_iff. cbn [In]. tauto. Qed.
Lemma account_iff : forall v, account_ok v = true <-> clean 512 [] v.
Proof. intros v. unfold account_ok. apply clean_iff. intros c. rewrite control_iff. cbn [In]. tauto. Qed.
Lemma field_eq_dec : forall f g : field, {f = g} + {f <> g}.
Proof. decide equality. Qed.
Lemma set_same : forall h f v, field_of (set_field h f v) f = Some v.
Proof. intros [] [] v; reflexivity. Qed.
Lemma set_other : forall h f g v, f <> g -> field_of (set_field h f v) g = field_of h g.
Proof. intros [] [] [] v H; try reflexivity; now contradiction H. Qed.
Lemma head_within : forall h, head_built h -> forall f v, field_of h f = Some v -> clean 1024 [] v.
Proof.
  intros h B. induction B as [|h g w h' B IH E]; intros f v F; [destruct f; discriminate|].
  unfold with_field in E. destruct (mvalue_ok w) eqn:K; [|discriminate]. injection E as <-. destruct (field_eq_dec g f) as [->|N].
  - rewrite set_same in F. injection F as <-. now apply mvalue_iff.
  - rewrite set_other in F by exact N. exact (IH f v F).
Qed.
Lemma rank_inj : forall a b, rank a = rank b -> a = b.
Proof. intros [] [] H; try reflexivity; discriminate. Qed.
Lemma put_class_in : forall k c m p, In p (class_put k c m) -> p = (k, c) \/ In p m.
Proof.
  intros k c. induction m as [|(k', c') m IH]; intros p H; [destruct H as [<-|[]]; now left|]. cbn [class_put] in H. destruct (rank k =? rank k'); [|destruct (rank k <? rank k')].
  - destruct H as [<-|H]; [now left|right; now right].
  - destruct H as [<-|H]; [now left|now right].
  - destruct H as [<-|H]; [right; now left|]. destruct (IH p H) as [->|I]; [now left|right; now right].
Qed.
Lemma put_order : forall k c m, in_order m -> in_order (class_put k c m).
Proof.
  intros k c. induction m as [|(k', c') m IH]; intros H; [split; [intros ? ? []|exact I]|]. cbn [class_put]. destruct H as (A & B). destruct (rank k =? rank k') eqn:E; [|destruct (rank k <? rank k') eqn:L].
  - cbn [in_order]. split; [|exact B]. intros x y Hx. pose proof (A x y Hx). lia.
  - cbn [in_order]. split; [|split; [exact A|exact B]]. intros x y [Hx|Hx]; [injection Hx as <- <-; lia|]. pose proof (A x y Hx). lia.
  - cbn [in_order]. split; [|now apply IH]. intros x y Hx. apply put_class_in in Hx as [Hx|Hx]; [injection Hx as -> ->; lia|exact (A x y Hx)].
Qed.
Lemma built_within : forall s, built s -> within s.
Proof.
  intros s B. induction B as [w|s a s' B IH E|s k c s' B IH U E|s h s' B IH H E].
  - refine (conj _ (conj I (conj _ (conj _ _)))); [discriminate|intros ? ? []|cbn; lia|intros ? ? ? []].
  - unfold set_account in E. destruct (account_ok a) eqn:K; [|discriminate]. injection E as <-. destruct IH as (_ & I2 & I3 & I4 & I5). refine (conj _ (conj I2 (conj I3 (conj I4 I5)))). intros x X. injection X as <-. now apply account_iff.
  - unfold add_class in E. destruct (_ && _); [discriminate|]. injection E as <-. destruct IH as (I1 & I2 & I3 & I4 & I5). refine (conj I1 (conj _ (conj _ (conj I4 I5)))); [now apply put_order|].
    intros x y Hx. apply put_class_in in Hx as [Hx|Hx]; [injection Hx as -> ->; exact U|exact (I3 x y Hx)].
  - unfold add_head in E. destruct (50 <=? llen (s_heads s)) eqn:K; [discriminate|]. injection E as <-. destruct IH as (I1 & I2 & I3 & I4 & I5). refine (conj I1 (conj I2 (conj I3 (conj _ _)))).
    + cbn [s_heads]. rewrite app_length. cbn [List.length]. unfold llen in K. lia.
    + intros x f v Hx F. cbn [s_heads] in Hx. apply in_app_or in Hx as [Hx|[<-|[]]]; [exact (I5 x f v Hx F)|exact (head_within h H f v F)].
Qed.

(** ** Lines *)
Lemma lines_back : forall ls, (forall l, In l ls -> ~ In 10 l) -> split_on 10 (flat_map (fun l => l ++ [10]) ls) = ls ++ [[]].
Proof.
  induction ls as [|l ls IH]; intros H; [reflexivity|]. cbn [flat_map]. rewrite <- app_assoc. cbn [app]. rewrite split_on_app by (apply mem_false; apply H; now left). rewrite IH by (intros x Hx; apply H; now right). reflexivity.
Qed.
Lemma lines_written : forall ls, (forall l, In l ls -> ~ In 10 l) -> lines (flat_map (fun l => l ++ [10]) ls) = ls.
Proof. intros ls H. unfold lines. rewrite lines_back by exact H. rewrite last_last. cbn [str_eqb]. now rewrite removelast_app, app_nil_r by discriminate. Qed.
(** a name in front of a colon *)
Definition plain_name (n : str) : Prop := n <> [] /\ forallb (fun c => negb (is_ws c) && negb (c =? 58)) n = true.
Lemma trim_named : forall n v, plain_name n -> exists x, trim (named n v) = n ++ 58 :: x /\ trim x = trim v.
Proof.
  intros n v (NE & P). unfold named. change (n ++ lit ": " ++ v) with (n ++ 58 :: 32 :: v). exists (trim_end_by is_ws (32 :: v)). split.
  - unfold trim, trim_by, trim_start_by. assert (D : drop_while is_ws (n ++ 58 :: 32 :: v) = n ++ 58 :: 32 :: v).
    { destruct n as [|c n]; [contradiction|]. cbn [app drop_while]. cbn [forallb] in P. destruct (is_ws c); [discriminate|reflexivity]. }
    rewrite D, HepProofs.trim_end_by_app. change (58 :: 32 :: v) with ([58] ++ (32 :: v)). rewrite HepProofs.trim_end_by_app. destruct (trim_end_by is_ws (32 :: v)) as [|y t]; reflexivity.
  - destruct (end_split is_ws (32 :: v)) as (b & E & F). transitivity (trim (32 :: v)).
    + rewrite E at 2. symmetry. apply trim_right. exact F.
    + change (32 :: v) with ([32] ++ v). apply trim_left. reflexivity.
Qed.
Lemma plain_colon : forall n, plain_name n -> mem 58 n = false.
Proof. intros n (_ & P). apply mem_false. intros H. rewrite forallb_forall in P. specialize (P 58 H). discriminate. Qed.
Lemma plain_trim : forall n, plain_name n -> trim n = n.
Proof. intros n (_ & P). apply edgeless_words. rewrite forallb_forall in *. intros c Hc. specialize (P c Hc). now apply andb_true_iff in P as (P & _). Qed.
Lemma read_named : forall r n v, plain_name n -> read_line r (named n v) = read_field r (lower n) (trim v).
Proof.
  intros r n v P. destruct (trim_named n v P) as (x & E & T). unfold read_line. rewrite E. destruct (n ++ 58 :: x) as [|y t] eqn:K; [destruct n; discriminate|]. rewrite <- K.
  rewrite split_once_app by now apply plain_colon. now rewrite plain_trim, T.
Qed.
Lemma read_app : forall a b r, read_lines (a ++ b) r = match read_lines a r with Some r' => read_lines b r' | None => None end.
Proof. induction a as [|l a IH]; intros b r; [reflexivity|]. cbn [app read_lines]. destruct (read_line r l); [apply IH|reflexivity]. Qed.

(** ** Counts *)
Lemma print_no : forall c n, (c < 48 \/ 57 < c) -> mem c (print_N n) = false.
Proof. intros c n H. apply mem_false. intros K. apply print_N_digits in K. lia. Qed.
Lemma pair_back : forall a b, a <= u32_max -> b <= u32_max -> pair_of (pair_text a b) = Some (a, b).
Proof.
  intros a b A B. unfold pair_of, pair_text. change (lit "/" ++ print_N b) with (47 :: print_N b). rewrite split_on_app by (apply print_no; lia). rewrite split_on_nomem by (apply print_no; lia). now rewrite !parse_uint_print.
Qed.
Lemma print_nonempty : forall n, print_N n <> [].
Proof. intros n H. pose proof (parse_uint_print n n (N.le_refl n)) as P. rewrite H in P. discriminate. Qed.
Lemma pair_chars : forall a b c, In c (pair_text a b) -> 47 <= c <= 57.
Proof. intros a b c H. unfold pair_text in H. change (lit "/") with [47] in H. apply in_app_or in H as [H|H]; [apply print_N_digits in H; lia|]. apply in_app_or in H as [[<-|[]]|H]; [lia|]. apply print_N_digits in H. lia. Qed.
Lemma ws_word : forall s cur, (forall c, In c s -> is_ws c = false) -> split_ws_aux cur s = match rev cur ++ s with [] => [] | w => [w] end.
Proof.
  induction s as [|c s IH]; intros cur H.
  - cbn [split_ws_aux]. rewrite app_nil_r. destruct cur as [|x cur]; [reflexivity|]. destruct (rev (x :: cur)) eqn:E; [|reflexivity]. apply (f_equal (@List.length N)) in E. rewrite rev_length in E. discriminate.
  - cbn [split_ws_aux]. rewrite (H c (or_introl eq_refl)). rewrite IH by (intros x Hx; apply H; now right). cbn [rev]. now rewrite <- app_assoc.
Qed.
Lemma ws_two : forall a b cur, (forall c, In c a -> is_ws c = false) -> (rev cur ++ a <> []) -> split_ws_aux cur (a ++ 32 :: b) = (rev cur ++ a) :: split_ws_aux [] b.
Proof.
  induction a as [|c a IH]; intros b cur H N.
  - cbn [app split_ws_aux]. change (is_ws 32) with true. cbv iota. rewrite app_nil_r in *. destruct cur as [|x cur]; [contradiction|reflexivity].
  - cbn [app split_ws_aux]. rewrite (H c (or_introl eq_refl)). rewrite IH; [cbn [rev]; now rewrite <- app_assoc|intros x Hx; apply H; now right|]. cbn [rev]. rewrite <- app_assoc. exact N.
Qed.
Lemma digit_ws : forall c, 47 <= c <= 57 -> is_ws c = false.
Proof. intros c H. unfold is_ws, in_range. lia. Qed.
Lemma pair_ne : forall a b, pair_text a b <> [].
Proof. intros a b H. unfold pair_text in H. destruct (print_N a) eqn:E; [now apply print_nonempty in E|discriminate]. Qed.
Lemma counts_back : forall c, u32_counts c -> counts_of (counts_text c) = Some c.
Proof.
  intros [a b x y] (A & B & X & Y). cbn [n_new n_old u_new u_old] in *. unfold counts_of, counts_text. cbn [n_new n_old u_new u_old]. unfold split_ws. destruct ((0 <? x) || (0 <? y)) eqn:U.
  - change (lit " (" ++ pair_text x y ++ lit ")") with (32 :: (40 :: pair_text x y ++ [41])). rewrite ws_two; [|intros c H; apply pair_chars in H; now apply digit_ws|cbn [rev app]; apply pair_ne].
    rewrite ws_word.
    + cbn [rev app]. rewrite pair_back by assumption. replace (trim_by (fun c => mem c [40; 41]) (40 :: pair_text x y ++ [41])) with (pair_text x y); [now rewrite pair_back by assumption|].
      symmetry. unfold trim_by, trim_start_by. cbn [drop_while mem]. change (mem 40 [40; 41]) with true. cbv iota. assert (D : drop_while (fun c => mem c [40; 41]) (pair_text x y ++ [41]) = pair_text x y ++ [41]).
      { destruct (pair_text x y) as [|c t] eqn:E; [now apply pair_ne in E|]. assert (47 <= c <= 57) by (apply (pair_chars x y); rewrite E; now left). cbn [app drop_while]. replace (mem c [40; 41]) with false; [reflexivity|]. symmetry. apply mem_false. cbn [In]. lia. }
      rewrite D, HepProofs.trim_end_by_app. change (trim_end_by (fun c => mem c [40; 41]) [41]) with (@nil N). cbv iota. apply (trim_end_last _ _ 0); [apply pair_ne|]. apply mem_false. pose proof (pair_ne x y) as NE. destruct (exists_last NE) as (t & c & E). rewrite E, last_last. assert (47 <= c <= 57) by (apply (pair_chars x y); rewrite E; apply in_or_app; right; now left). cbn [In]. lia.
    + intros c [<-|H]; [reflexivity|]. apply in_app_or in H as [H|[<-|[]]]; [|reflexivity]. apply pair_chars in H. now apply digit_ws.
  - rewrite app_nil_r. rewrite ws_word by (intros c H; apply pair_chars in H; now apply digit_ws). cbn [rev app]. destruct (pair_text a b) as [|z t] eqn:E; [now apply pair_ne in E|]. rewrite <- E. rewrite pair_back by assumption. unfold counts_new. replace x with 0 by lia. now replace y with 0 by lia.
Qed.
Lemma counts_chars : forall c x, In x (counts_text c) -> x = 32 \/ 40 <= x <= 57.
Proof.
  intros c x H. unfold counts_text in H. apply in_app_or in H as [H|H]; [apply pair_chars in H; lia|]. destruct (_ || _); [|destruct H]. apply in_app_or in H as [H|H]; [cbn in H; lia|]. apply in_app_or in H as [H|H]; [apply pair_chars in H; lia|cbn in H; lia].
Qed.

(** ** Reading what was written *)
Lemma clean_line : forall k no s, clean k no s -> ~ In 10 s.
Proof. intros k no s (_ & H) K. destruct (H 10 K). lia. Qed.
Lemma clean_of_trim : forall k s, clean k [] s -> clean k [] (trim s).
Proof. intros k s. apply clean_trim. Qed.
Lemma named_line_free : forall n v, plain_name n -> ~ In 10 v -> ~ In 10 (named n v).
Proof.
  intros n v (_ & P) V H. unfold named in H. apply in_app_or in H as [H|H]; [rewrite forallb_forall in P; specialize (P 10 H); discriminate|]. apply in_app_or in H as [[H|[H|[]]]|H]; [discriminate|discriminate|contradiction].
Qed.
Ltac plain := split; [discriminate|reflexivity].
Lemma kind_plain : forall k, plain_name (kind_name k).
Proof. intros []; plain. Qed.
Lemma field_plain : forall f, plain_name (field_name f).
Proof. intros []; plain. Qed.
Lemma waiting_plain : plain_name (lit "Messages-Waiting"). Proof. plain. Qed.
Lemma account_plain : plain_name (lit "Message-Account"). Proof. plain. Qed.
Lemma head_lines_free : forall h, (forall f v, field_of h f = Some v -> clean 1024 [] v) -> forall l, In l (head_lines h) -> ~ In 10 l.
Proof.
  intros h H l L. unfold head_lines in L. apply in_flat_map in L as (f & _ & L). destruct (field_of h f) as [v|] eqn:E; [|destruct L]. destruct L as [<-|[]]. apply named_line_free; [apply field_plain|]. exact (clean_line _ _ _ (H f v E)).
Qed.
Lemma lines_free : forall s, within s -> forall l, In l (summary_lines s) -> ~ In 10 l.
Proof.
  intros s (W1 & W2 & W3 & W4 & W5) l L. unfold summary_lines in L. destruct L as [<-|L].
  - apply named_line_free; [apply waiting_plain|]. destruct (s_waiting s); cbn; intros H; repeat (destruct H as [H|H]; [discriminate|]); exact H.
  - apply in_app_or in L as [L|L]; [|apply in_app_or in L as [L|L]].
    + destruct (s_account s) as [a|] eqn:E; [|destruct L]. destruct L as [<-|[]]. apply named_line_free; [apply account_plain|]. exact (clean_line _ _ _ (W1 a eq_refl)).
    + apply in_map_iff in L as ((k, c) & <- & _). apply named_line_free; [apply kind_plain|]. intros H. apply counts_chars in H. lia.
    + apply in_flat_map in L as (h & Hh & L). exact (head_lines_free h (fun f v => W5 h f v Hh) l L).
Qed.
Lemma order_bound : forall m l, in_order l -> (forall k c, In (k, c) l -> m <= rank k) -> m <= 6 -> m + llen l <= 6.
Proof.
  intros m l. revert m. induction l as [|(k, c) l IH]; intros m O B M; [unfold llen; cbn [List.length]; lia|]. destruct O as (O1 & O2). rewrite llen_cons.
  assert (K : rank k < 6) by (destruct k; cbn; lia). pose proof (B k c (or_introl eq_refl)). pose proof (IH (rank k + 1) O2) as J. assert (rank k + 1 + llen l <= 6); [|lia]. apply J; [|lia]. intros k' c' H'. pose proof (O1 k' c' H'). lia.
Qed.
Lemma put_at_end : forall k c m, (forall k' c', In (k', c') m -> rank k' < rank k) -> class_put k c m = m ++ [(k, c)].
Proof.
  intros k c. induction m as [|(k', c') m IH]; intros H; [reflexivity|]. cbn [class_put app]. pose proof (H k' c' (or_introl eq_refl)). replace (rank k =? rank k') with false by lia. replace (rank k <? rank k') with false by lia. rewrite IH; [reflexivity|]. intros x y Hx. apply (H x y). now right.
Qed.
Lemma order_app : forall a b, in_order (a ++ b) -> in_order a /\ in_order b /\ forall k c k' c', In (k, c) a -> In (k', c') b -> rank k < rank k'.
Proof.
  induction a as [|(k, c) a IH]; intros b O; [refine (conj I (conj O _)); intros ? ? ? ? []|]. destruct O as (O1 & O2). destruct (IH b O2) as (A & B & C). refine (conj (conj _ A) (conj B _)).
  - intros k' c' H. apply (O1 k' c'). apply in_or_app. now left.
  - intros x y x' y' [Hx|Hx] H'; [injection Hx as <- <-; apply (O1 x' y'); apply in_or_app; now right|exact (C x y x' y' Hx H')].
Qed.
Lemma kind_back : forall k, kind_of (lower (kind_name k)) = Some k.
Proof. intros []; reflexivity. Qed.
Lemma counts_trim : forall c, trim (counts_text c) = counts_text c.
Proof.
  intros c. unfold counts_text. pose proof (pair_ne (n_new c) (n_old c)) as NE. assert (E : edgeless (pair_text (n_new c) (n_old c))).
  { apply edgeless_words. apply forallb_forall. intros x Hx. apply pair_chars in Hx. now rewrite digit_ws. }
  destruct (_ || _); [|now rewrite app_nil_r]. replace (pair_text (n_new c) (n_old c) ++ lit " (" ++ pair_text (u_new c) (u_old c) ++ lit ")") with (pair_text (n_new c) (n_old c) ++ (lit " (" ++ pair_text (u_new c) (u_old c)) ++ lit ")") by now rewrite <- !app_assoc.
  apply edgeless_ends; [exact NE|discriminate|exact E|reflexivity].
Qed.
Lemma read_kind : forall r k v, read_field r (lower (kind_name k)) v = match counts_of v with Some c => lift r (add_class (r_sum r) k c) | None => Some r end.
Proof. intros r k v. destruct k; reflexivity. Qed.
Lemma read_classes : forall w a f cs acc hs cur, in_order (acc ++ cs) -> (forall k c, In (k, c) cs -> u32_counts c) ->
  read_lines (map (fun p => named (kind_name (fst p)) (counts_text (snd p))) cs) (mkReading (mkSummary w a acc hs) f cur) = Some (mkReading (mkSummary w a (acc ++ cs) hs) f cur).
Proof.
  intros w a f. induction cs as [|(k, c) cs IH]; intros acc hs cur O U; [now rewrite app_nil_r|]. cbn [map read_lines fst snd]. rewrite read_named by apply kind_plain. rewrite read_kind, counts_trim, counts_back by (apply (U k c); now left).
  destruct (order_app _ _ O) as (O1 & O2 & O3). pose proof (order_bound 0 acc O1 ltac:(intros; lia) ltac:(lia)) as L. unfold add_class. cbn [r_sum s_classes]. replace (10 <=? llen acc) with false by lia. rewrite andb_false_r. unfold lift. cbn [s_waiting s_account s_heads r_found r_cur].
  rewrite put_at_end by (intros x y Hx; apply (O3 x y k c Hx); now left). rewrite IH; [now rewrite <- app_assoc|now rewrite <- app_assoc|]. intros x y Hx. apply (U x y). now right.
Qed.
(** the fields of a message header, put over what was gathered *)
Definition under (o : option mheader) : mheader := match o with Some h => h | None => mheader_new end.
Definition take (h : mheader) (o : option mheader) (f : field) : option mheader := match field_of h f with Some v => Some (set_field (under o) f (trim v)) | None => o end.
Definition absorb (o : option mheader) (h : mheader) : option mheader := fold_left (take h) fields o.
Lemma read_one : forall s b o f v, clean 1024 [] v -> read_field (mkReading s b o) (lower (field_name f)) (trim v) = Some (mkReading s b (Some (set_field (under o) f (trim v)))).
Proof.
  intros s b o f v C. apply clean_of_trim, mvalue_iff in C. destruct f; unfold read_field, with_field, under; cbn [r_cur r_sum r_found]; cbv [lower map field_name lit str_eqb]; cbn -[trim mvalue_ok set_field mheader_new]; rewrite C; reflexivity.
Qed.
Lemma read_head : forall s b h fs o, (forall f v, field_of h f = Some v -> clean 1024 [] v) ->
  read_lines (flat_map (fun f => opt_line (field_name f) (field_of h f)) fs) (mkReading s b o) = Some (mkReading s b (fold_left (take h) fs o)).
Proof.
  intros s b h. induction fs as [|f fs IH]; intros o H; [reflexivity|]. cbn [flat_map fold_left]. unfold take at 2. destruct (field_of h f) as [v|] eqn:E; [|apply IH; exact H]. cbn [opt_line app read_lines]. rewrite read_named by apply field_plain. rewrite read_one by exact (H f v E). now apply IH.
Qed.
Lemma read_heads : forall s b hs o, (forall h f v, In h hs -> field_of h f = Some v -> clean 1024 [] v) ->
  read_lines (flat_map head_lines hs) (mkReading s b o) = Some (mkReading s b (fold_left absorb hs o)).
Proof.
  intros s b. induction hs as [|h hs IH]; intros o H; [reflexivity|]. cbn [flat_map fold_left]. rewrite read_app. unfold head_lines at 1. rewrite read_head by (intros f v; apply (H h f v); now left). apply IH. intros x f v Hx. apply (H x f v). now right.
Qed.
Theorem read_written : forall s, within s -> blen (write_summary s) <= 102400 ->
  read_summary (write_summary s) = Some (mkSummary (s_waiting s) (option_map trim (s_account s)) (s_classes s) (match fold_left absorb (s_heads s) None with Some h => [h] | None => [] end)).
Proof.
  intros s W L. pose proof (lines_free s W) as F. destruct W as (W1 & W2 & W3 & W4 & W5). unfold read_summary. replace (102400 <? blen (write_summary s)) with false by (symmetry; now apply N.ltb_ge). unfold write_summary. rewrite lines_written by exact F. unfold summary_lines. cbn [read_lines]. rewrite read_named by apply waiting_plain.
  assert (S1 : read_field (mkReading (summary_new false) false None) (lower (lit "Messages-Waiting")) (trim (if s_waiting s then lit "yes" else lit "no")) = Some (mkReading (mkSummary (s_waiting s) None [] []) true None)) by (destruct (s_waiting s); reflexivity).
  rewrite S1. rewrite read_app. assert (S2 : read_lines (opt_line (lit "Message-Account") (s_account s)) (mkReading (mkSummary (s_waiting s) None [] []) true None) = Some (mkReading (mkSummary (s_waiting s) (option_map trim (s_account s)) [] []) true None)).
  { destruct (s_account s) as [a|]; [|reflexivity]. cbn [opt_line read_lines]. rewrite read_named by apply account_plain. unfold read_field. change (str_eqb (lower (lit "Message-Account")) (lit "messages-waiting")) with false. change (str_eqb (lower (lit "Message-Account")) (lit "message-account")) with true. cbv iota. unfold set_account. cbn [r_sum].
    assert (A : account_ok (trim a) = true) by (apply account_iff, clean_of_trim; now apply W1). rewrite A. reflexivity. }
  rewrite S2, read_app. rewrite read_classes by assumption. cbn [app]. rewrite read_heads by exact W5. unfold flush. cbn [r_cur r_sum r_found]. destruct (fold_left absorb (s_heads s) None) as [h|]; reflexivity.
Qed.
Lemma take_none : forall h f fs o, field_of h f = None -> field_of (under (fold_left (take h) fs o)) f = field_of (under o) f.
Proof.
  intros h f. induction fs as [|g fs IH]; intros o H; [reflexivity|]. cbn [fold_left]. rewrite IH by exact H. unfold take. destruct (field_of h g) as [v|] eqn:E; [|reflexivity]. cbn [under]. apply set_other. intros ->. congruence.
Qed.
Lemma take_some : forall h f v fs o, field_of h f = Some v -> In f fs \/ field_of (under o) f = Some (trim v) -> field_of (under (fold_left (take h) fs o)) f = Some (trim v).
Proof.
  intros h f v. induction fs as [|g fs IH]; intros o H K; [destruct K as [[]|K]; exact K|]. cbn [fold_left]. apply IH; [exact H|]. destruct K as [[->|K]|K]; [right|now left|right].
  - unfold take. rewrite H. cbn [under]. apply set_same.
  - unfold take. destruct (field_of h g) as [w|] eqn:E; [|exact K]. cbn [under]. destruct (field_eq_dec g f) as [->|N]; [rewrite set_same; congruence|]. now rewrite set_other.
Qed.
Lemma all_fields : forall f, In f fields. Proof. intros []; cbn; tauto. Qed.
Lemma absorb_field : forall h o f, field_of (under (absorb o h)) f = match field_of h f with Some v => Some (trim v) | None => field_of (under o) f end.
Proof. intros h o f. unfold absorb. destruct (field_of h f) as [v|] eqn:E; [apply take_some; [exact E|left; apply all_fields]|now apply take_none]. Qed.
Lemma take_keeps : forall h fs o, fold_left (take h) fs o = None -> o = None /\ forall f, In f fs -> field_of h f = None.
Proof.
  intros h. induction fs as [|g fs IH]; intros o H; [split; [exact H|intros ? []]|]. cbn [fold_left] in H. apply IH in H as (H1 & H2). unfold take in H1. destruct (field_of h g) eqn:E; [discriminate|]. split; [exact H1|]. intros f [<-|Hf]; [exact E|now apply H2].
Qed.
Lemma absorb_none : forall hs o, fold_left absorb hs o = None <-> o = None /\ forall h, In h hs -> gives_nothing h.
Proof.
  induction hs as [|h hs IH]; intros o; cbn [fold_left]; [split; [intros ->; split; [reflexivity|intros ? []]|tauto]|]. rewrite IH. split.
  - intros (A & B). unfold absorb in A. apply take_keeps in A as (A & C). split; [exact A|]. intros x [<-|Hx]; [|now apply B]. intros f. apply C, all_fields.
  - intros (-> & B). split; [|intros x Hx; apply B; now right]. unfold absorb, fields. cbn [fold_left]. pose proof (B h (or_introl eq_refl)) as G. unfold take. now rewrite !G.
Qed.
Lemma absorb_last : forall hs o f v, last_given f hs v -> field_of (under (fold_left absorb hs o)) f = Some (trim v).
Proof.
  intros hs o f v (a & h & b & -> & E & N). rewrite fold_left_app. cbn [fold_left]. generalize (fold_left absorb a o). intros o'. assert (K : forall o1, field_of (under o1) f = Some (trim v) -> field_of (under (fold_left absorb b o1)) f = Some (trim v)).
  { revert N. clear. induction b as [|x b IH]; intros N o1 H; [exact H|]. cbn [fold_left]. apply IH; [intros y Hy; apply N; now right|]. rewrite absorb_field, (N x) by now left. exact H. }
  apply K. now rewrite absorb_field, E.
Qed.
Lemma absorb_never : forall hs o f, (forall h, In h hs -> field_of h f = None) -> field_of (under (fold_left absorb hs o)) f = field_of (under o) f.
Proof. induction hs as [|h hs IH]; intros o f H; [reflexivity|]. cbn [fold_left]. rewrite IH by (intros x Hx; apply H; now right). now rewrite absorb_field, (H h) by now left. Qed.
Lemma trim_is_pared : forall v, pared white v (trim v).
Proof. intros v. apply trim_pared, white_iff. Qed.

(** ** C158: what a reader makes of the text *)
(** a summary that was built, and whose text is not longer than a reader takes, is read
    back with its status, account and counts; of its message headers one is left, which
    holds for every field the last value given *)
Theorem C158_read : forall s, built s -> blen (write_summary s) <= 102400 ->
  exists s', read_summary (write_summary s) = Some s' /\ s_waiting s' = s_waiting s /\ opt_pared (s_account s) (s_account s') /\ s_classes s' = s_classes s
    /\ ((s_heads s' = [] /\ forall h, In h (s_heads s) -> gives_nothing h) \/ exists h, s_heads s' = [h] /\ gathers (s_heads s) h /\ exists h0, In h0 (s_heads s) /\ ~ gives_nothing h0).
Proof.
  intros s B L. eexists. split; [apply read_written; [now apply built_within|exact L]|]. cbn [s_waiting s_account s_classes s_heads]. refine (conj eq_refl (conj _ (conj eq_refl _))).
  - destruct (s_account s) as [a|]; [apply trim_is_pared|exact I].
  - destruct (fold_left absorb (s_heads s) None) as [h|] eqn:E.
    + right. exists h. refine (conj eq_refl (conj _ _)).
      * intros f. split.
        -- intros v G. exists (trim v). split; [|apply trim_is_pared]. apply (absorb_last _ None) in G. now rewrite E in G.
        -- intros N. pose proof (absorb_never (s_heads s) None f N) as K. rewrite E in K. cbn [under] in K. rewrite K. now destruct f.
      * assert (D : forall hs, (forall h0, In h0 hs -> gives_nothing h0) \/ exists h0, In h0 hs /\ ~ gives_nothing h0).
        { induction hs as [|x hs IH]; [left; intros ? []|]. destruct IH as [IH|(y & Hy & N)]; [|right; exists y; split; [now right|exact N]].
          assert (X : gives_nothing x \/ ~ gives_nothing x).
          { destruct (fold_left absorb [x] None) as [z|] eqn:Z; [right|left].
            - intros G. assert (fold_left absorb [x] None = None) by (apply absorb_none; split; [reflexivity|]; intros y [<-|[]]; exact G). congruence.
            - apply absorb_none in Z as (_ & Z). apply Z. now left. }
          destruct X as [X|X]; [left; intros y [<-|Hy]; [exact X|now apply IH]|right; exists x; split; [now left|exact X]]. }
        destruct (D (s_heads s)) as [N|N]; [|exact N]. assert (fold_left absorb (s_heads s) None = None) by (apply absorb_none; split; [reflexivity|exact N]). congruence.
    + left. split; [reflexivity|]. apply absorb_none in E. apply E.
Qed.
Print Assumptions C158_read.

(** with at most one message header, which says something, the text is never too long
    and everything is read back, but for the white space round values *)
Lemma print_short : forall n, n <= 4294967295 -> blen (print_N n) <= 33.
Proof.
  intros n H. assert (P : forall f m, blen (print_fuel f m) <= N.of_nat f).
  { induction f as [|f IH]; intros m; [reflexivity|]. cbn [print_fuel]. destruct (m <? 10) eqn:E.
    - cbn [blen]. unfold len_utf8. replace (48 + m <? 128) with true by lia. lia.
    - rewrite blen_app. pose proof (IH (m / 10)). cbn [blen]. unfold len_utf8. pose proof (N.mod_upper_bound m 10 ltac:(lia)). replace (48 + m mod 10 <? 128) with true by lia. lia. }
  unfold print_N. pose proof (P (Datatypes.S (N.size_nat n)) n) as K. assert ((N.size_nat n <= 32)%nat); [|lia]. destruct n as [|p]; [cbn; lia|]. assert (Q : forall q k, (Pos.size_nat q <= k)%nat <-> N.pos q < 2 ^ N.of_nat k).
  { induction q as [q IH|q IH|]; intros k; (destruct k as [|k]; [cbn; lia|]); cbn [Pos.size_nat].
    - rewrite Nat2N.inj_succ, N.pow_succ_r'. specialize (IH k). lia.
    - rewrite Nat2N.inj_succ, N.pow_succ_r'. specialize (IH k). lia.
    - rewrite Nat2N.inj_succ, N.pow_succ_r'. assert (0 < 2 ^ N.of_nat k) by (apply N.neq_0_lt_0, N.pow_nonzero; lia). lia. }
  cbn [N.size_nat]. apply Q. change (2 ^ N.of_nat 32) with 4294967296. lia.
Qed.
Definition text_len (ls : list str) : N := blen (flat_map (fun l => l ++ [10]) ls).
Lemma text_app : forall a b, text_len (a ++ b) = text_len a + text_len b.
Proof. intros a b. unfold text_len. now rewrite flat_map_app, blen_app. Qed.
Lemma text_cons : forall l ls, text_len (l :: ls) = blen l + 1 + text_len ls.
Proof. intros l ls. unfold text_len. cbn [flat_map]. rewrite !blen_app. change (blen [10]) with 1. lia. Qed.
Lemma named_len : forall n v, blen (named n v) = blen n + 2 + blen v.
Proof. intros n v. unfold named. rewrite !blen_app. change (blen (lit ": ")) with 2. lia. Qed.
Lemma counts_len : forall c, u32_counts c -> blen (counts_text c) <= 140.
Proof.
  intros c (A & B & C & D). apply print_short in A, B, C, D. unfold counts_text, pair_text. rewrite !blen_app. change (blen (lit "/")) with 1. destruct (_ || _); [rewrite !blen_app; change (blen (lit "/")) with 1; change (blen (lit " (")) with 2; change (blen (lit ")")) with 1|change (blen []) with 0]; lia.
Qed.
Lemma classes_len : forall cs, (forall k c, In (k, c) cs -> u32_counts c) -> text_len (map (fun p => named (kind_name (fst p)) (counts_text (snd p))) cs) <= 170 * llen cs.
Proof.
  induction cs as [|(k, c) cs IH]; intros U; [reflexivity|]. cbn [map fst snd]. rewrite text_cons, named_len, llen_cons. pose proof (counts_len c (U k c (or_introl eq_refl))). assert (blen (kind_name k) <= 18) by (destruct k; cbn; lia). pose proof (IH (fun k' c' H' => U k' c' (or_intror H'))). lia.
Qed.
Lemma head_len : forall h, (forall f v, field_of h f = Some v -> clean 1024 [] v) -> forall fs, text_len (flat_map (fun f => opt_line (field_name f) (field_of h f)) fs) <= 1050 * llen fs.
Proof.
  intros h H. induction fs as [|f fs IH]; [reflexivity|]. cbn [flat_map]. rewrite text_app, llen_cons. assert (text_len (opt_line (field_name f) (field_of h f)) <= 1050); [|lia]. destruct (field_of h f) as [v|] eqn:E; [|cbn; lia]. cbn [opt_line]. rewrite text_cons, named_len. change (text_len []) with 0. destruct (H f v E) as (L & _). assert (blen (field_name f) <= 15) by (destruct f; cbn; lia). lia.
Qed.
Theorem C158_roundtrip : forall s, built s -> s_heads s = [] \/ (exists h, s_heads s = [h] /\ ~ gives_nothing h) ->
  exists s', read_summary (write_summary s) = Some s' /\ s_waiting s' = s_waiting s /\ opt_pared (s_account s) (s_account s') /\ s_classes s' = s_classes s
    /\ Forall2 (fun h h' => forall f, opt_pared (field_of h f) (field_of h' f)) (s_heads s) (s_heads s').
Proof.
  intros s B H. assert (L : blen (write_summary s) <= 102400).
  { destruct (built_within s B) as (W1 & W2 & W3 & W4 & W5). change (blen (write_summary s)) with (text_len (summary_lines s)). unfold summary_lines. rewrite text_cons, !text_app, named_len. change (blen (lit "Messages-Waiting")) with 16. assert (blen (if s_waiting s then lit "yes" else lit "no") <= 3) by (destruct (s_waiting s); cbn; lia).
    assert (text_len (opt_line (lit "Message-Account") (s_account s)) <= 530) by (destruct (s_account s) as [a|]; [|cbn; lia]; cbn [opt_line]; rewrite text_cons, named_len; change (text_len []) with 0; change (blen (lit "Message-Account")) with 15; destruct (W1 a eq_refl); lia).
    pose proof (classes_len (s_classes s) W3). pose proof (order_bound 0 (s_classes s) W2 ltac:(intros; lia) ltac:(lia)).
    assert (text_len (flat_map head_lines (s_heads s)) <= 7350).
    { destruct H as [-> | (h & E & _)]; [cbn; lia|]. rewrite E in *. cbn [flat_map]. rewrite app_nil_r. pose proof (head_len h (fun f v => W5 h f v (or_introl eq_refl)) fields) as K. change (llen fields) with 7 in K. exact K. }
    lia. }
  destruct (C158_read s B L) as (s' & R & A1 & A2 & A3 & A4). exists s'. refine (conj R (conj A1 (conj A2 (conj A3 _)))). destruct A4 as [(E & N)|(h' & E & G & h0 & I0 & _)].
  - rewrite E. destruct H as [-> | (h & E' & N')]; [constructor|]. exfalso. apply N', N. rewrite E'. now left.
  - rewrite E. destruct H as [H | (h & E' & N')]; [rewrite H in I0; destruct I0|]. rewrite E' in *. constructor; [|constructor]. intros f. destruct (G f) as (G1 & G2). destruct (field_of h f) as [v|] eqn:K.
    + destruct (G1 v) as (w & -> & P); [|exact P]. exists [], h, []. refine (conj eq_refl (conj K _)). intros ? [].
    + rewrite G2; [exact I|]. intros x [<-|[]]. exact K.
Qed.
Print Assumptions C158_roundtrip.
Definition greeting : mheader := set_field (set_field mheader_new FFrom (lit "sip:bob@example.com")) FSubject (lit "hello ").
Definition box1 : summary := mkSummary true (Some (lit "sip:alice@example.com")) [(KVoice, mkCounts 2 8 0 2); (KFax, mkCounts 0 1 0 0)] [greeting].
Lemma greeting_built : head_built greeting.
Proof. apply (hb_with (set_field mheader_new FFrom (lit "sip:bob@example.com")) FSubject (lit "hello ")); [apply (hb_with mheader_new FFrom (lit "sip:bob@example.com")); [apply hb_new|]|]; vm_compute; reflexivity. Qed.
Lemma box1_built : built box1.
Proof.
  apply (sb_head (mkSummary true (Some (lit "sip:alice@example.com")) [(KVoice, mkCounts 2 8 0 2); (KFax, mkCounts 0 1 0 0)] []) greeting); [|apply greeting_built|reflexivity].
  apply (sb_class (mkSummary true (Some (lit "sip:alice@example.com")) [(KFax, mkCounts 0 1 0 0)] []) KVoice (mkCounts 2 8 0 2)); [|unfold u32_counts; cbn; lia|reflexivity].
  apply (sb_class (mkSummary true (Some (lit "sip:alice@example.com")) [] []) KFax (mkCounts 0 1 0 0)); [|unfold u32_counts; cbn; lia|reflexivity].
  apply (sb_account (summary_new true) (lit "sip:alice@example.com")); [apply sb_new|reflexivity].
Qed.
Example C158_example : built box1 /\ exists h, s_heads box1 = [h] /\ ~ gives_nothing h.
Proof. split; [exact box1_built|]. exists greeting. split; [reflexivity|]. intros H. specialize (H FFrom). discriminate. Qed.

(** two message headers are read as one: the sender of the first is gone *)
Definition reply1 : mheader := set_field mheader_new FFrom (lit "sip:carol@example.com").
Theorem C158_heads_refuted : exists s s', built s /\ read_summary (write_summary s) = Some s'
  /\ map h_from (s_heads s) = [Some (lit "sip:bob@example.com"); Some (lit "sip:carol@example.com")] /\ map h_from (s_heads s') = [Some (lit "sip:carol@example.com")].
Proof.
  exists (mkSummary true None [] [greeting; reply1]). eexists. split; [|split; [vm_compute; reflexivity|split; vm_compute; reflexivity]].
  apply (sb_head (mkSummary true None [] [greeting]) reply1); [|apply (hb_with mheader_new FFrom (lit "sip:carol@example.com")); [apply hb_new|vm_compute; reflexivity]|reflexivity]. apply (sb_head (summary_new true) greeting); [apply sb_new|apply greeting_built|reflexivity].
Qed.
Print Assumptions C158_heads_refuted.
(** a message header in which nothing is set is gone *)
Theorem C158_nothing_refuted : exists s s', built s /\ s_heads s <> [] /\ read_summary (write_summary s) = Some s' /\ s_heads s' = [].
Proof.
  exists (mkSummary false None [] [mheader_new]). eexists. split; [|split; [discriminate|split; [vm_compute; reflexivity|reflexivity]]]. apply (sb_head (summary_new false) mheader_new); [apply sb_new|apply hb_new|reflexivity].
Qed.
Print Assumptions C158_nothing_refuted.
(** a summary that was built may be too long to be read at all *)
Definition long1 : mheader := set_field (set_field mheader_new FFrom (List.repeat 120 1024)) FSubject (List.repeat 120 1024).
Lemma long_built : forall n, (n <= 50)%nat -> built (mkSummary true None [] (List.repeat long1 n)).
Proof.
  assert (H : head_built long1) by (apply (hb_with (set_field mheader_new FFrom (List.repeat 120 1024)) FSubject (List.repeat 120 1024)); [apply (hb_with mheader_new FFrom (List.repeat 120 1024)); [apply hb_new|]|]; vm_compute; reflexivity).
  induction n as [|n IH]; intros L; [apply sb_new|]. apply (sb_head (mkSummary true None [] (List.repeat long1 n)) long1); [apply IH; lia|exact H|]. unfold add_head. cbn [s_heads]. unfold llen. rewrite repeat_length. replace (50 <=? N.of_nat n) with false by lia. cbn [s_waiting s_account s_classes]. now rewrite <- repeat_cons.
Qed.
Lemma long_text : text_len (head_lines long1) = 2065. Proof. vm_compute. reflexivity. Qed.
Lemma long_len : forall n, blen (write_summary (mkSummary true None [] (List.repeat long1 n))) = 22 + N.of_nat n * 2065.
Proof.
  intros n. transitivity (text_len (summary_lines (mkSummary true None [] (List.repeat long1 n)))); [reflexivity|]. unfold summary_lines. cbn [s_waiting s_account s_classes s_heads opt_line map app]. rewrite text_cons, named_len. change (blen (lit "Messages-Waiting")) with 16. change (blen (lit "yes")) with 3.
  induction n as [|n IH]; [reflexivity|]. cbn [List.repeat flat_map]. rewrite text_app, long_text. lia.
Qed.
Lemma too_long : forall t, 102400 < blen t -> read_summary t = None.
Proof. intros t H. unfold read_summary. now replace (102400 <? blen t) with true by lia. Qed.
Theorem C158_size_refuted : exists s, built s /\ read_summary (write_summary s) = None.
Proof.
  exists (mkSummary true None [] (List.repeat long1 50)). split; [apply long_built; lia|]. apply too_long. rewrite long_len. reflexivity.
Qed.
Print Assumptions C158_size_refuted.

(** ** C159: what a text that is accepted says *)
Lemma line_cases : forall r l r', read_line r l = Some r' ->
  (trim l = [] /\ flush r = Some r') \/ (trim l <> [] /\ ~ In 58 (trim l) /\ r' = r) \/ (exists n v, named_line l n v /\ read_field r n v = Some r').
Proof.
  intros r l r' H. unfold read_line in H. destruct (trim l) as [|x t] eqn:T; [now left|]. right. destruct (split_once 58 (x :: t)) as [(n, v)|] eqn:S1.
  - right. apply split_once_some in S1 as (E & N). exists (lower (trim n)), (trim v). split; [|exact H]. exists n, v. rewrite T. refine (conj E (conj _ (conj eq_refl eq_refl))). now apply mem_false.
  - left. apply split_once_none in S1. injection H as <-. refine (conj _ (conj _ eq_refl)); [discriminate|]. now apply mem_false.
Qed.
Lemma named_det : forall l n v n' v', named_line l n v -> named_line l n' v' -> n = n' /\ v = v'.
Proof.
  intros l n v n' v' (a & x & E & N & A & ->) (b & y & E' & N' & B & ->). rewrite E in E'. assert (split_once 58 (a ++ 58 :: x) = Some (a, x)) by (apply split_once_app, mem_false; exact N). rewrite E' in H. rewrite split_once_app in H by (apply mem_false; exact N'). injection H as -> ->. now rewrite <- A, <- B.
Qed.
(** reading keeps to the limits *)
Lemma pair_u32 : forall s a b, pair_of s = Some (a, b) -> a <= u32_max /\ b <= u32_max.
Proof.
  intros s a b H. unfold pair_of in H. destruct (split_on 47 s) as [|x [|y [|]]]; try discriminate. assert (K : forall t n, parse_uint u32_max t = Some n -> n <= u32_max).
  { intros t n P. unfold parse_uint in P. destruct (match t with [] => t | c :: r => if c =? 43 then r else t end); [discriminate|]. destruct (all_digits _); [|discriminate]. cbv zeta in P. destruct (_ <=? u32_max) eqn:L in P; [|discriminate]. injection P as <-. now apply N.leb_le. }
  destruct (parse_uint u32_max x) eqn:X; [|discriminate]. destruct (parse_uint u32_max y) eqn:Y; [|discriminate]. injection H as <- <-. split; [exact (K _ _ X)|exact (K _ _ Y)].
Qed.
Lemma counts_u32 : forall s c, counts_of s = Some c -> u32_counts c.
Proof.
  intros s c H. unfold counts_of in H. destruct (split_ws s) as [|p r]; [discriminate|]. destruct (pair_of p) as [(a, b)|] eqn:P; [|discriminate]. apply pair_u32 in P as (A & B). change u32_max with 4294967295 in *. destruct r as [|u r]; [injection H as <-; unfold u32_counts, counts_new; cbn; lia|].
  destruct (pair_of (trim_by _ u)) as [(x, y)|] eqn:Q in H; injection H as <-; [apply pair_u32 in Q as (X & Y); change u32_max with 4294967295 in *; unfold u32_counts; cbn; lia|unfold u32_counts, counts_new; cbn; lia].
Qed.
Lemma built_waiting : forall w s, built s -> built (mkSummary w (s_account s) (s_classes s) (s_heads s)).
Proof.
  intros w s B. induction B as [w'|s a s' B IH E|s k c s' B IH U E|s h s' B IH H E].
  - apply sb_new.
  - unfold set_account in E. destruct (account_ok a) eqn:K; [|discriminate]. injection E as <-. apply (sb_account _ a _ IH). unfold set_account. now rewrite K.
  - unfold add_class in E. destruct (_ && _) eqn:K; [discriminate|]. injection E as <-. apply (sb_class _ k c _ IH U). unfold add_class. cbn [s_classes]. now rewrite K.
  - unfold add_head in E. destruct (50 <=? llen (s_heads s)) eqn:K; [discriminate|]. injection E as <-. apply (sb_head _ h _ IH H). unfold add_head. cbn [s_heads]. now rewrite K.
Qed.
Definition fit (r : reading) : Prop := built (r_sum r) /\ (forall h, r_cur r = Some h -> head_built h).
Lemma flush_fit : forall r r', fit r -> flush r = Some r' -> fit r' /\ r_cur r' = None.
Proof.
  intros r r' (B & C) H. unfold flush in H. destruct (r_cur r) as [h|] eqn:E.
  - destruct (add_head (r_sum r) h) as [s|] eqn:A; [|discriminate]. injection H as <-. split; [|reflexivity]. split; [|discriminate]. exact (sb_head _ h _ B (C h eq_refl) A).
  - injection H as <-. split; [|exact E]. split; [exact B|]. intros h X. congruence.
Qed.
Lemma field_fit : forall r n v r', fit r -> read_field r n v = Some r' -> fit r'.
Proof.
  intros r n v r' (B & C) H. unfold read_field in H. destruct (str_eqb n (lit "messages-waiting")).
  { cbv zeta in H. destruct (eq_ic v (lit "yes")); [injection H as <-; split; [now apply built_waiting|exact C]|]. destruct (eq_ic v (lit "no")); [injection H as <-; split; [now apply built_waiting|exact C]|discriminate]. }
  destruct (str_eqb n (lit "message-account")).
  { unfold lift in H. destruct (set_account (r_sum r) v) as [s|] eqn:E; [|discriminate]. injection H as <-. split; [exact (sb_account _ v _ B E)|exact C]. }
  destruct (ends_with (lit "-message") n).
  { destruct (kind_of n) as [k|]; [|injection H as <-; now split]. destruct (counts_of v) as [c|] eqn:K; [|injection H as <-; now split]. unfold lift in H. destruct (add_class (r_sum r) k c) as [s|] eqn:E; [|discriminate]. injection H as <-. split; [exact (sb_class _ k c _ B (counts_u32 v c K) E)|exact C]. }
  destruct (find _ fields) as [f|]; [|injection H as <-; now split]. destruct (with_field _ f v) as [h|] eqn:E in H; [|discriminate]. injection H as <-. split; [exact B|]. intros h' X. injection X as <-. apply (hb_with (match r_cur r with Some h0 => h0 | None => mheader_new end) f v); [|exact E]. destruct (r_cur r) as [h0|]; [now apply C|apply hb_new].
Qed.
Lemma line_fit : forall r l r', fit r -> read_line r l = Some r' -> fit r'.
Proof.
  intros r l r' F H. apply line_cases in H as [(_ & H)|[(_ & _ & ->)|(n & v & _ & H)]]; [exact (proj1 (flush_fit _ _ F H))|exact F|exact (field_fit _ _ _ _ F H)].
Qed.
Lemma lines_fit : forall ls r r', fit r -> read_lines ls r = Some r' -> fit r'.
Proof. induction ls as [|l ls IH]; intros r r' F H; [now injection H as <-|]. cbn [read_lines] in H. destruct (read_line r l) as [r1|] eqn:E; [|discriminate]. exact (IH r1 r' (line_fit _ _ _ F E) H). Qed.
Lemma read_parts : forall t s, read_summary t = Some s -> blen t <= 102400 /\ exists r, read_lines (lines t) (mkReading (summary_new false) false None) = Some r
  /\ r_found r = true /\ s_waiting s = s_waiting (r_sum r) /\ s_classes s = s_classes (r_sum r) /\ (fit r -> built s).
Proof.
  intros t s H. unfold read_summary in H. destruct (102400 <? blen t) eqn:L; [discriminate|]. split; [now apply N.ltb_ge in L|]. destruct (read_lines _ _) as [r|] eqn:E; [|discriminate]. exists r. split; [reflexivity|]. destruct (flush r) as [r'|] eqn:F; [|discriminate]. destruct (r_found r') eqn:G; [|discriminate]. injection H as <-.
  assert (K : r_found r' = r_found r /\ s_waiting (r_sum r') = s_waiting (r_sum r) /\ s_classes (r_sum r') = s_classes (r_sum r)).
  { unfold flush in F. destruct (r_cur r) as [h|]; [|injection F as <-; now repeat split]. destruct (add_head (r_sum r) h) as [s|] eqn:A; [|discriminate]. injection F as <-. unfold add_head in A. destruct (50 <=? _); [discriminate|]. injection A as <-. now repeat split. }
  destruct K as (K1 & K2 & K3). refine (conj _ (conj K2 (conj K3 _))); [congruence|]. intros Ft. exact (proj1 (proj1 (flush_fit _ _ Ft F))).
Qed.
Lemma start_fit : fit (mkReading (summary_new false) false None).
Proof. split; [apply sb_new|discriminate]. Qed.

(** what is read could have been built: it is within the limits, and its text, if it is
    not too long, is read again *)
Theorem C159_limits : forall t s, read_summary t = Some s -> built s /\ within s.
Proof. intros t s H. apply read_parts in H as (_ & r & E & _ & _ & _ & K). assert (B : built s) by (apply K; exact (lines_fit _ _ _ start_fit E)). split; [exact B|now apply built_within]. Qed.
Print Assumptions C159_limits.

(** the last line of a name decides *)
Lemma last_line : forall (P : str -> Prop) (A : Type) (get : reading -> A) (Q : str -> A -> Prop),
  (forall r l r', read_line r l = Some r' -> (P l /\ Q l (get r')) \/ (~ P l /\ get r' = get r)) ->
  forall ls r r', read_lines ls r = Some r' ->
  (exists a l b, ls = a ++ l :: b /\ P l /\ (forall x, In x b -> ~ P x) /\ Q l (get r')) \/ ((forall x, In x ls -> ~ P x) /\ get r' = get r).
Proof.
  intros P A get Q Step. induction ls as [|l ls IH]; intros r r' H; [right; injection H as <-; split; [intros ? []|reflexivity]|]. cbn [read_lines] in H. destruct (read_line r l) as [r1|] eqn:E; [|discriminate].
  destruct (IH r1 r' H) as [(a & x & b & -> & Px & N & Qx)|(N & G)]; [left; exists (l :: a), x, b; now repeat split|]. destruct (Step r l r1 E) as [(Pl & Ql)|(Nl & Gl)].
  - left. exists [], l, ls. refine (conj eq_refl (conj Pl (conj N _))). now rewrite G.
  - right. split; [|congruence]. intros x [<-|Hx]; [exact Nl|now apply N].
Qed.
Lemma flush_keeps : forall r r', flush r = Some r' -> r_found r' = r_found r /\ s_waiting (r_sum r') = s_waiting (r_sum r) /\ s_classes (r_sum r') = s_classes (r_sum r).
Proof. intros r r' F. unfold flush in F. destruct (r_cur r) as [h|]; [|injection F as <-; now repeat split]. destruct (add_head (r_sum r) h) as [s|] eqn:A; [|discriminate]. injection F as <-. unfold add_head in A. destruct (50 <=? _); [discriminate|]. injection A as <-. now repeat split. Qed.
Lemma no_name : forall l, trim l = [] \/ ~ In 58 (trim l) -> forall n v, ~ named_line l n v.
Proof. intros l H n v (a & x & E & _). destruct H as [H|H]; [rewrite H in E; destruct a; discriminate|]. apply H. rewrite E. apply in_or_app. right. now left. Qed.
Lemma status_step : forall r l r', read_line r l = Some r' ->
  ((exists v, named_line l (lit "messages-waiting") v) /\ exists v, named_line l (lit "messages-waiting") v /\ r_found r' = true /\ lower v = (if s_waiting (r_sum r') then lit "yes" else lit "no"))
  \/ (~ (exists v, named_line l (lit "messages-waiting") v) /\ (r_found r', s_waiting (r_sum r')) = (r_found r, s_waiting (r_sum r))).
Proof.
  intros r l r' H. apply line_cases in H as [(T & H)|[(T & N & ->)|(n & v & NL & H)]].
  - right. split; [intros (v & K); exact (no_name l (or_introl T) _ _ K)|]. apply flush_keeps in H as (A & B & _). now rewrite A, B.
  - right. split; [intros (v & K); exact (no_name l (or_intror N) _ _ K)|reflexivity].
  - unfold read_field in H. destruct (str_eqb n (lit "messages-waiting")) eqn:E.
    + apply str_eqb_spec in E. subst n. left. split; [now exists v|]. exists v. split; [exact NL|]. cbv zeta in H. destruct (eq_ic v (lit "yes")) eqn:Y; [injection H as <-; split; [reflexivity|]; now apply eq_ic_spec in Y|]. destruct (eq_ic v (lit "no")) eqn:Z; [|discriminate]. injection H as <-. split; [reflexivity|]. now apply eq_ic_spec in Z.
    + apply str_eqb_neq in E. right. split; [intros (v' & K); destruct (named_det _ _ _ _ _ NL K); contradiction|].
      destruct (str_eqb n (lit "message-account")). { unfold lift, set_account in H. destruct (account_ok v); [|discriminate]. now injection H as <-. }
      destruct (ends_with _ n). { destruct (kind_of n) as [k|]; [|now injection H as <-]. destruct (counts_of v) as [c|]; [|now injection H as <-]. unfold lift, add_class in H. destruct (_ && _); [discriminate|]. now injection H as <-. }
      destruct (find _ fields) as [f|]; [|now injection H as <-]. destruct (with_field _ f v) in H; [|discriminate]. now injection H as <-.
Qed.
Lemma lines_split : forall t l, In l (lines t) -> In l (split_on 10 t).
Proof.
  intros t l H. unfold lines in H. destruct (str_eqb _ _); [|exact H]. destruct (split_on 10 t) as [|x xs]; [destruct H|]. assert (NE : x :: xs <> []) by discriminate. destruct (exists_last NE) as (a & y & E). rewrite E in *. rewrite removelast_app in H by discriminate. cbn [removelast] in H. rewrite app_nil_r in H. apply in_or_app. now left.
Qed.
(** the status is that of the last line of that name, and there is one *)
Theorem C159_status : forall t s, read_summary t = Some s -> exists a l b v,
  lines t = a ++ l :: b /\ named_line l (lit "messages-waiting") v /\ lower v = (if s_waiting s then lit "yes" else lit "no")
  /\ forall x w, In x b -> ~ named_line x (lit "messages-waiting") w.
Proof.
  intros t s H. apply read_parts in H as (_ & r & E & F & W & _ & _). rewrite W.
  destruct (last_line (fun l => exists v, named_line l (lit "messages-waiting") v) (bool * bool) (fun r => (r_found r, s_waiting (r_sum r)))
    (fun l g => exists v, named_line l (lit "messages-waiting") v /\ fst g = true /\ lower v = (if snd g then lit "yes" else lit "no")) status_step _ _ _ E) as [(a & l & b & Ls & _ & N & v & NL & _ & L)|(_ & G)].
  - exists a, l, b, v. refine (conj Ls (conj NL (conj L _))). intros x w Hx K. apply (N x Hx). now exists w.
  - cbn in G. rewrite F in G. discriminate.
Qed.
Print Assumptions C159_status.

(** the counts of a class are those of its last line that can be read *)
Definition class_get (k : kind) (m : list (kind * counts)) : option counts := match find (fun p => rank (fst p) =? rank k) m with Some (_, c) => Some c | None => None end.
Lemma get_put : forall k c m, class_get k (class_put k c m) = Some c.
Proof.
  intros k c. unfold class_get. induction m as [|(k', c') m IH]; [cbn; now rewrite N.eqb_refl|]. cbn [class_put]. destruct (rank k =? rank k') eqn:E; [cbn; now rewrite N.eqb_refl|]. destruct (rank k <? rank k'); [cbn; now rewrite N.eqb_refl|]. cbn [find fst]. rewrite (N.eqb_sym (rank k')), E. exact IH.
Qed.
Lemma get_put_other : forall k j c m, j <> k -> class_get k (class_put j c m) = class_get k m.
Proof.
  intros k j c m N. assert (R : rank j =? rank k = false) by (apply N.eqb_neq; intros R; now apply rank_inj in R). unfold class_get. induction m as [|(k', c') m IH]; [cbn; now rewrite R|]. cbn [class_put]. destruct (rank j =? rank k') eqn:E; [|destruct (rank j <? rank k')].
  - apply N.eqb_eq in E. cbn [find fst]. rewrite <- E, R. reflexivity.
  - cbn [find fst]. now rewrite R.
  - cbn [find fst]. destruct (rank k' =? rank k); [reflexivity|exact IH].
Qed.
Lemma kind_of_name : forall n k, lower n = n -> kind_of n = Some k -> n = lower (kind_name k).
Proof. intros n k L H. unfold kind_of in H. apply find_some in H as (_ & H). apply str_eqb_spec in H. now rewrite L in H. Qed.
Lemma named_lower : forall l n v, named_line l n v -> lower n = n.
Proof. intros l n v (a & x & _ & _ & <- & _). apply lower_idem. Qed.
Lemma kind_dec : forall a b : kind, {a = b} + {a <> b}. Proof. decide equality. Qed.
Lemma kind_name_inj : forall a b, lower (kind_name a) = lower (kind_name b) -> a = b.
Proof. intros a b H. pose proof (kind_back a) as K. rewrite H, kind_back in K. congruence. Qed.
Lemma class_step : forall k r l r', read_line r l = Some r' ->
  ((exists c, counts_line l k c) /\ exists c, counts_line l k c /\ class_get k (s_classes (r_sum r')) = Some c)
  \/ (~ (exists c, counts_line l k c) /\ class_get k (s_classes (r_sum r')) = class_get k (s_classes (r_sum r))).
Proof.
  intros k r l r' H. apply line_cases in H as [(T & H)|[(T & N & ->)|(n & v & NL & H)]].
  - right. split; [intros (c & v & K & _); exact (no_name l (or_introl T) _ _ K)|]. apply flush_keeps in H as (_ & _ & C). now rewrite C.
  - right. split; [intros (c & v & K & _); exact (no_name l (or_intror N) _ _ K)|reflexivity].
  - destruct (str_eqb n (lower (kind_name k))) eqn:E.
    + apply str_eqb_spec in E. subst n. rewrite read_kind in H. destruct (counts_of v) as [c|] eqn:C.
      * left. assert (CL : counts_line l k c) by (exists v; now split). split; [now exists c|]. exists c. split; [exact CL|]. unfold lift, add_class in H. destruct (_ && _); [discriminate|]. injection H as <-. cbn [r_sum s_classes]. apply get_put.
      * right. injection H as <-. split; [|reflexivity]. intros (c & v' & K & C'). destruct (named_det _ _ _ _ _ NL K) as (_ & <-). congruence.
    + apply str_eqb_neq in E. right. split; [intros (c & v' & K & _); destruct (named_det _ _ _ _ _ NL K); contradiction|]. unfold read_field in H. destruct (str_eqb n (lit "messages-waiting")).
      { cbv zeta in H. destruct (eq_ic v (lit "yes")); [now injection H as <-|]. destruct (eq_ic v (lit "no")); [now injection H as <-|discriminate]. }
      destruct (str_eqb n (lit "message-account")). { unfold lift, set_account in H. destruct (account_ok v); [|discriminate]. now injection H as <-. }
      destruct (ends_with _ n).
      { destruct (kind_of n) as [j|] eqn:J; [|now injection H as <-]. apply kind_of_name in J; [|exact (named_lower _ _ _ NL)]. destruct (counts_of v) as [c|]; [|now injection H as <-]. unfold lift, add_class in H. destruct (_ && _); [discriminate|]. injection H as <-. cbn [r_sum s_classes]. apply get_put_other. intros ->. contradiction. }
      destruct (find _ fields) as [f|]; [|now injection H as <-]. destruct (with_field _ f v) in H; [|discriminate]. now injection H as <-.
Qed.
Lemma get_in_order : forall m k c, in_order m -> (In (k, c) m <-> class_get k m = Some c).
Proof.
  intros m k c O. unfold class_get. split.
  - induction m as [|(k', c') m IH]; intros H; [destruct H|]. destruct O as (O1 & O2). cbn [find fst]. destruct H as [H|H].
    + injection H as -> ->. now rewrite N.eqb_refl.
    + pose proof (O1 k c H). replace (rank k' =? rank k) with false by lia. now apply IH.
  - destruct (find _ m) as [(k', c')|] eqn:F; [|discriminate]. intros H. injection H as ->. apply find_some in F as (F & R). cbn [fst] in R. apply N.eqb_eq, rank_inj in R. now subst.
Qed.
Theorem C159_counts : forall t s k c, read_summary t = Some s ->
  (In (k, c) (s_classes s) <-> exists a l b, lines t = a ++ l :: b /\ counts_line l k c /\ forall x c', In x b -> ~ counts_line x k c').
Proof.
  intros t s k c H. pose proof (C159_limits t s H) as (_ & _ & O & _). rewrite (get_in_order _ _ _ O). apply read_parts in H as (_ & r & E & _ & _ & C & _). rewrite C. pose proof (last_line (fun l => exists c, counts_line l k c) (option counts) (fun r => class_get k (s_classes (r_sum r)))
    (fun l g => exists c, counts_line l k c /\ g = Some c) (class_step k) _ _ _ E) as D. assert (Det : forall l c1 c2, counts_line l k c1 -> counts_line l k c2 -> c1 = c2).
  { intros l c1 c2 (v1 & N1 & C1) (v2 & N2 & C2). destruct (named_det _ _ _ _ _ N1 N2) as (_ & <-). congruence. }
  split.
  - intros G. destruct D as [(a & l & b & Ls & _ & N & c0 & CL & K)|(_ & K)].
    + rewrite G in K. injection K as <-. exists a, l, b. refine (conj Ls (conj CL _)). intros x c' Hx CX. apply (N x Hx). now exists c'.
    + rewrite G in K. discriminate.
  - intros (a & l & b & Ls & CL & N). destruct D as [(a' & l' & b' & Ls' & P' & N' & c0 & CL' & K)|(K & _)].
    + rewrite K. f_equal. enough (l = l') by (subst l'; exact (Det l c0 c CL' CL)). rewrite Ls in Ls'. revert a' Ls'. clear - N N' CL P'. induction a as [|x a IH]; intros [|y a'] E; cbn [app] in E.
      * now injection E.
      * exfalso. injection E as _ E. destruct P' as (c' & P'). apply (N l' c'); [|exact P']. rewrite E. apply in_or_app. right. now left.
      * exfalso. injection E as E1 E. apply (N' l); [|now exists c]. rewrite <- E. apply in_or_app. right. now left.
      * injection E as _ E. exact (IH _ E).
    + exfalso. apply (K l); [|now exists c]. rewrite Ls. apply in_or_app. right. now left.
Qed.
Print Assumptions C159_counts.
Example C159_example : exists s, read_summary (lit "messages-waiting:YES" ++ [13; 10] ++ lit "Voice-Message: 2/8 (0/2)" ++ [13; 10] ++ lit "voice-message : 3/9" ++ [10] ++ lit "Fax-Message: x") = Some s
  /\ s_waiting s = true /\ s_classes s = [(KVoice, mkCounts 3 9 0 0)].
Proof. eexists. split; [vm_compute; reflexivity|split; reflexivity]. Qed.

(** lines may end in CRLF or in LF *)
Theorem C159_line_ends : forall ls, (forall l, In l ls -> ~ In 10 l) -> blen (flat_map (fun l => l ++ [13; 10]) ls) <= 102400 ->
  read_summary (flat_map (fun l => l ++ [13; 10]) ls) = read_summary (flat_map (fun l => l ++ [10]) ls).
Proof.
  intros ls N L. assert (E : flat_map (fun l => l ++ [13; 10]) ls = flat_map (fun l => l ++ [10]) (map (fun l => l ++ [13]) ls)).
  { clear. induction ls as [|l ls IH]; [reflexivity|]. cbn [map flat_map]. rewrite IH. now rewrite <- !app_assoc. }
  unfold read_summary. replace (102400 <? blen (flat_map (fun l => l ++ [13; 10]) ls)) with false by (symmetry; now apply N.ltb_ge). assert (L' : blen (flat_map (fun l => l ++ [10]) ls) <= blen (flat_map (fun l => l ++ [13; 10]) ls)).
  { clear. induction ls as [|l ls IH]; [reflexivity|]. cbn [flat_map]. rewrite !blen_app. change (blen [10]) with 1. change (blen [13; 10]) with 2. lia. }
  replace (102400 <? blen (flat_map (fun l => l ++ [10]) ls)) with false by (symmetry; apply N.ltb_ge; lia). rewrite E, !lines_written; [|exact N|]; [|intros l H; apply in_map_iff in H as (x & <- & Hx); intros K; apply in_app_or in K as [K|[K|[]]]; [exact (N x Hx K)|discriminate]].
  assert (R : forall r, read_lines (map (fun l => l ++ [13]) ls) r = read_lines ls r); [|now rewrite R]. clear. induction ls as [|l ls IH]; intros r; [reflexivity|]. cbn [map read_lines]. assert (T : trim (l ++ [13]) = trim l) by (apply trim_right; reflexivity). assert (RL : read_line r (l ++ [13]) = read_line r l) by (unfold read_line; rewrite T; reflexivity). rewrite RL. destruct (read_line r l); [apply IH|reflexivity].
Qed.
Print Assumptions C159_line_ends.

(** the totals: the sum, where it fits *)
Lemma sum_spec : forall l a n, a <= u32_max -> (sum_u32 a l = Ret n <-> n = a + sum_of l /\ n <= 4294967295).
Proof.
  change u32_max with 4294967295. induction l as [|x l IH]; intros a n A; cbn [sum_u32 sum_of fold_right].
  - rewrite N.add_0_r. split; [intros H; injection H as <-; now split|now intros (-> & _)].
  - unfold add_u32. change u32_max with 4294967295. destruct (a + x <=? 4294967295) eqn:E.
    + rewrite IH by lia. unfold sum_of. split; intros (H & K); split; lia.
    + split; [discriminate|]. intros (H & K). unfold sum_of in H. lia.
Qed.
Theorem C159_totals : forall s n,
  (total_new s = Ret n <-> n = sum_of (map (fun p => n_new (snd p)) (s_classes s)) /\ n <= 4294967295)
  /\ (total_old s = Ret n <-> n = sum_of (map (fun p => n_old (snd p)) (s_classes s)) /\ n <= 4294967295).
Proof. intros s n. unfold total_new, total_old. rewrite !sum_spec by (change u32_max with 4294967295; lia). rewrite !N.add_0_l. tauto. Qed.
Print Assumptions C159_totals.
Example C159_totals_example : total_new box1 = Ret 2 /\ total_old box1 = Ret 9. Proof. split; reflexivity. Qed.
(** a text that is accepted may make every one of them fail *)
Theorem C159_totals_refuted : exists t s, read_summary t = Some s /\ total_new s = Panics /\ total_old s = Panics /\ exists k c, In (k, c) (s_classes s) /\ count_total c = Panics /\ count_urgent c = Panics.
Proof.
  exists (lit "Messages-Waiting: yes" ++ [10] ++ lit "Voice-Message: 4294967295/4294967295 (4294967295/1)" ++ [10] ++ lit "Fax-Message: 1/1"). eexists. split; [vm_compute; reflexivity|]. split; [reflexivity|]. split; [reflexivity|]. exists KVoice, (mkCounts 4294967295 4294967295 4294967295 1). split; [now left|split; reflexivity].
Qed.
Print Assumptions C159_totals_refuted.

(** the classes come in the order of RFC 3842, whatever the order they were added in *)
Theorem C158_order : forall s x a c y b d z, built s -> s_classes s = x ++ (a, c) :: y ++ (b, d) :: z ->
  exists i j, (i < j)%nat /\ nth_error [KVoice; KFax; KPager; KMultimedia; KText; KNone] i = Some a /\ nth_error [KVoice; KFax; KPager; KMultimedia; KText; KNone] j = Some b.
Proof.
  intros s x a c y b d z B E. destruct (built_within s B) as (_ & O & _). rewrite E in O. apply order_app in O as (_ & (O & _) & _). pose proof (O b d (in_or_app y ((b, d) :: z) (b, d) (or_intror (or_introl eq_refl)))) as L.
  exists (N.to_nat (rank a)), (N.to_nat (rank b)). split; [lia|]. split; [now destruct a|now destruct b].
Qed.
Print Assumptions C158_order.
(** urgent messages count whether new or old *)
Theorem C159_urgent : forall s, summary_urgent s = true <-> exists k c, In (k, c) (s_classes s) /\ (0 < u_new c \/ 0 < u_old c).
Proof.
  intros s. unfold summary_urgent. rewrite existsb_exists. unfold has_urgent. split.
  - intros ((k, c) & H & U). exists k, c. split; [exact H|]. cbn [snd] in U. lia.
  - intros (k & c & H & U). exists (k, c). split; [exact H|]. cbn [snd]. lia.
Qed.
Print Assumptions C159_urgent.
