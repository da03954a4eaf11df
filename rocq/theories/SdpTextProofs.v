(** Proofs about reading and writing session descriptions *)
From Coq Require Import NArith Bool String List Lia ZifyBool ZifyN ZifyNat Arith.
Import ListNotations.
From Verif Require Import Base BaseFacts Text TextFacts NumFacts PrackProofs Sdp SdpText SdpTextSpec.
From Verif Require SdpProofs ViaProofs.
Open Scope N_scope.
Open Scope list_scope.

(** ** Combinators, forwards *)
Definition stops (p : N -> bool) (b : str) : Prop := match b with [] => True | c :: _ => p c = true end.
Lemma span_app : forall p a b, (forall c, In c a -> p c = true) -> match b with [] => True | c :: _ => p c = false end -> span p (a ++ b) = (a, b).
Proof.
  intros p a b H B. induction a as [|c a IH]; cbn [app span].
  - destruct b; [reflexivity|]. cbn [span]. now rewrite B.
  - rewrite (H c (or_introl eq_refl)), IH; [reflexivity|]. intros x Hx. apply H. now right.
Qed.
Lemma take_till_app : forall p a b, (forall c, In c a -> p c = false) -> stops p b -> take_till p (a ++ b) = Some (b, a).
Proof.
  intros. unfold take_till. rewrite span_app; [reflexivity| |].
  - intros c Hc. now rewrite (H c Hc).
  - destruct b; cbn in *; [exact I|]. now rewrite H0.
Qed.
Lemma space1_one : forall s, match s with [] => True | c :: _ => space_tab c = false end -> space1 (32 :: s) = Some (s, tt).
Proof. intros s H. unfold space1. change (32 :: s) with ([32] ++ s). rewrite span_app; [reflexivity| |exact H]. intros c [<-|[]]. reflexivity. Qed.
Lemma number_print : forall mx n b, n <= mx -> match b with [] => True | c :: _ => is_digit c = false end -> number mx (print_N n ++ b) = Some (b, n).
Proof.
  intros mx n b H B. unfold number. rewrite span_app; [|intros c Hc; pose proof (print_N_digits _ _ Hc); unfold is_digit, in_range; lia|exact B].
  destruct (print_N n) eqn:E; [exfalso; now apply (print_N_nonempty n)|]. rewrite <- E, parse_uint_print by assumption. reflexivity.
Qed.
Lemma tag_app : forall A t (v : A) s, tag t v (t ++ s) = Some (s, v).
Proof. intros. unfold tag. now rewrite strip_prefix_app. Qed.
Lemma bind_some : forall A B (p : parser A) (f : A -> parser B) s r a, p s = Some (r, a) -> bind p f s = f a r.
Proof. intros. unfold bind. now rewrite H. Qed.
Lemma then_space_app : forall A (p : parser A) s b a, p s = Some (32 :: b, a) -> match b with [] => True | c :: _ => space_tab c = false end ->
  then_space p s = Some (b, a).
Proof. intros A p s b a H B. unfold then_space. rewrite (bind_some _ _ _ _ _ _ _ H). unfold bind, pure. now rewrite space1_one. Qed.

(** ** The text of one line, and what makes it readable *)
Definition m_head (m : media) : media := mkMedia (md_type m) (md_port m) (md_ports m) (md_proto m) (md_formats m) None None [] None [] [].
Definition l_text (l : sdp_line) : str :=
  match l with
  | LVersion v => lit "v=" ++ print_N v
  | LOrigin o => lit "o=" ++ og_user o ++ 32 :: og_id o ++ 32 :: og_version o ++ lit " IN " ++ addr_type_text (og_type o) ++ 32 :: og_addr o
  | LName s => lit "s=" ++ s | LInfo s => lit "i=" ++ s | LUri s => lit "u=" ++ s | LEmail s => lit "e=" ++ s | LPhone s => lit "p=" ++ s
  | LConn c => lit "c=IN " ++ addr_type_text (cx_type c) ++ 32 :: cx_addr c
  | LBandwidth b => lit "b=" ++ bw_type b ++ 58 :: print_N (bw_value b)
  | LTime a b => lit "t=" ++ print_N a ++ 32 :: print_N b
  | LRepeat r => lit "r=" ++ rp_interval r ++ 32 :: rp_duration r ++ flat_map (fun o => 32 :: o) (rp_offsets r)
  | LZone l => lit "z=" ++ join [32] (map zone_text l)
  | LKey s => lit "k=" ++ s
  | LAttr (AProp n) => lit "a=" ++ n
  | LAttr (AVal n v) => lit "a=" ++ n ++ 58 :: v
  | LMedia m => lit "m=" ++ media_type_text (md_type m) ++ 32 :: print_N (md_port m) ++ match md_ports m with Some n => 47 :: print_N n | None => [] end
      ++ 32 :: proto_text (md_proto m) ++ flat_map (fun f => 32 :: f) (md_formats m)
  end.
Definition good_head (m : media) : Prop :=
  good_type (md_type m) /\ md_port m <= u16_max /\ if_any (fun n => n <= u16_max) (md_ports m) /\ good_proto (md_proto m)
  /\ md_formats m <> [] /\ (forall f, In f (md_formats m) -> is_token f) /\ m_head m = m.
Definition good_line (l : sdp_line) : Prop :=
  match l with
  | LVersion v => v <= u8_max
  | LOrigin o => good_origin o
  | LName s | LInfo s | LUri s | LEmail s | LPhone s | LKey s => tidy s
  | LConn c => good_conn c
  | LBandwidth b => good_bw b
  | LTime a b => a <= u64_max /\ b <= u64_max
  | LRepeat r => good_repeat r
  | LZone l => l <> [] /\ forall z, In z l -> good_zone z
  | LAttr a => good_attr a
  | LMedia m => good_head m
  end.
(** the first two characters choose the kind of line *)
Ltac pick := intros r; unfold p_line, orelse; repeat match goal with
  | |- match ?x with Some _ => _ | None => _ end = _ => change x with (@None (str * sdp_line)); cbv iota
  end; match goal with |- ?a = ?a => reflexivity | |- _ = ?x => destruct x; reflexivity end.
Lemma p_v : forall r, p_line (lit "v=" ++ r) = v_line (lit "v=" ++ r).
Proof. pick. Qed.
Lemma p_o : forall r, p_line (lit "o=" ++ r) = o_line (lit "o=" ++ r).
Proof. pick. Qed.
Lemma p_s : forall r, p_line (lit "s=" ++ r) = text_line (lit "s=") LName (lit "s=" ++ r).
Proof. pick. Qed.
Lemma p_i : forall r, p_line (lit "i=" ++ r) = text_line (lit "i=") LInfo (lit "i=" ++ r).
Proof. pick. Qed.
Lemma p_u : forall r, p_line (lit "u=" ++ r) = text_line (lit "u=") LUri (lit "u=" ++ r).
Proof. pick. Qed.
Lemma p_e : forall r, p_line (lit "e=" ++ r) = text_line (lit "e=") LEmail (lit "e=" ++ r).
Proof. pick. Qed.
Lemma p_p : forall r, p_line (lit "p=" ++ r) = text_line (lit "p=") LPhone (lit "p=" ++ r).
Proof. pick. Qed.
Lemma p_c : forall r, p_line (lit "c=" ++ r) = c_line (lit "c=" ++ r).
Proof. pick. Qed.
Lemma p_b : forall r, p_line (lit "b=" ++ r) = b_line (lit "b=" ++ r).
Proof. pick. Qed.
Lemma p_t : forall r, p_line (lit "t=" ++ r) = t_line (lit "t=" ++ r).
Proof. pick. Qed.
Lemma p_r : forall r, p_line (lit "r=" ++ r) = r_line (lit "r=" ++ r).
Proof. pick. Qed.
Lemma p_z : forall r, p_line (lit "z=" ++ r) = z_line (lit "z=" ++ r).
Proof. pick. Qed.
Lemma p_k : forall r, p_line (lit "k=" ++ r) = text_line (lit "k=") LKey (lit "k=" ++ r).
Proof. pick. Qed.
Lemma p_a : forall r, p_line (lit "a=" ++ r) = a_line (lit "a=" ++ r).
Proof. pick. Qed.
Lemma p_m : forall r, p_line (lit "m=" ++ r) = m_line (lit "m=" ++ r).
Proof. pick. Qed.

Lemma to_eol_app : forall s b, one_line s -> to_eol (s ++ 13 :: b) = Some (13 :: b, s).
Proof. intros s b H. apply take_till_app; [|reflexivity]. intros c Hc. destruct (H c Hc). unfold eol. lia. Qed.
Lemma text_line_app : forall t f s b, tidy s -> text_line t f (t ++ s ++ 13 :: b) = Some (13 :: b, f s).
Proof.
  intros t f s b [H1 H2]. unfold text_line. rewrite (bind_some _ _ _ _ _ _ _ (tag_app _ _ _ _)). unfold pmap.
  rewrite (bind_some _ _ _ _ _ _ _ (to_eol_app _ _ H1)). unfold pure. now rewrite H2.
Qed.
Lemma ws_space_tab : forall c, space_tab c = true -> is_ws c = true.
Proof. intros c H. unfold space_tab in H. unfold is_ws, in_range. lia. Qed.
Lemma tidy_first : forall s b, tidy s -> match s ++ 13 :: b with [] => True | c :: _ => space_tab c = false end.
Proof.
  intros [|c s] b [H1 H2]; [reflexivity|]. cbn [app]. destruct (space_tab c) eqn:E; [|reflexivity]. exfalso.
  apply ws_space_tab in E. unfold trim in H2. destruct (trim_by_no_edge is_ws (c :: s)) as [Hh _]. rewrite H2 in Hh. cbn in Hh. congruence.
Qed.
Lemma nettype_app : forall s, nettype (lit "IN" ++ s) = Some (s, tt).
Proof. intros. apply tag_app. Qed.
Lemma addrtype_app : forall t s, addrtype (addr_type_text t ++ s) = Some (s, t).
Proof. intros [] s; reflexivity. Qed.
Lemma p_c_app : forall c b, good_conn c -> c_line (lit "c=IN " ++ addr_type_text (cx_type c) ++ 32 :: cx_addr c ++ 13 :: b) = Some (13 :: b, LConn c).
Proof.
  intros [t a] b H. cbn [cx_type cx_addr] in *. unfold c_line. 
  change (lit "c=IN ") with (lit "c=" ++ lit "IN" ++ [32]). rewrite <- !app_assoc. cbn [app].
  rewrite (bind_some _ _ _ _ _ _ _ (tag_app _ _ _ _)).
  rewrite (bind_some _ _ (then_space nettype) _ _ (addr_type_text t ++ 32 :: a ++ 13 :: b) tt).
  2: { apply then_space_app; [apply nettype_app|]. now destruct t. }
  rewrite (bind_some _ _ (then_space addrtype) _ _ (a ++ 13 :: b) t).
  2: { apply then_space_app; [apply addrtype_app|]. now apply tidy_first. }
  destruct H as [H1 H2]. cbn [cx_addr] in H1, H2. rewrite (bind_some _ _ _ _ _ _ _ (to_eol_app _ _ H1)). unfold pure. now rewrite H2.
Qed.
Lemma field_app : forall s b, (forall c, In c s -> c <> 32) -> match b with [] => True | c :: _ => space_tab c = false end ->
  then_space (take_till (N.eqb 32)) (s ++ 32 :: b) = Some (b, s).
Proof. intros s b H B. apply then_space_app; [|exact B]. apply take_till_app; [|reflexivity]. intros c Hc. specialize (H c Hc). lia. Qed.
Lemma first_ok : forall s b, s <> [] -> hd 0 s <> 9 -> (forall c, In c s -> c <> 32) -> match s ++ b with [] => True | c :: _ => space_tab c = false end.
Proof. intros [|c s] b H1 H2 H3; [congruence|]. cbn in *. specialize (H3 c (or_introl eq_refl)). unfold space_tab. lia. Qed.
Lemma p_o_app : forall o b, good_origin o -> o_line (l_text (LOrigin o) ++ 13 :: b) = Some (13 :: b, LOrigin o).
Proof.
  intros [u i v t a] b (Hu & (Hi1 & Hi2 & Hi3) & (Hv1 & Hv2 & Hv3) & Ha). cbn [og_user og_id og_version og_type og_addr l_text] in *. unfold o_line. cbv zeta.
  change (lit " IN ") with (32 :: lit "IN" ++ [32]). rewrite <- !app_assoc. cbn [app]. rewrite <- !app_assoc. cbn [app]. rewrite <- !app_assoc. cbn [app].
  rewrite <- !app_assoc. cbn [app].
  rewrite (bind_some _ _ _ _ _ _ _ (tag_app _ _ _ _)).
  erewrite bind_some by (apply field_app; [exact Hu|]; apply first_ok; assumption).
  erewrite bind_some by (apply field_app; [exact Hi3|]; apply first_ok; assumption).
  erewrite bind_some by (apply field_app; [exact Hv3|]; reflexivity).
  rewrite <- !app_assoc. cbn [app].
  erewrite bind_some by (apply then_space_app; [apply nettype_app|]; now destruct t).
  erewrite bind_some by (apply then_space_app; [apply addrtype_app|]; now apply tidy_first).
  destruct Ha as [H1 H2]. rewrite (bind_some _ _ _ _ _ _ _ (to_eol_app _ _ H1)). unfold pure. now rewrite H2.
Qed.
Lemma p_b_app : forall w b, good_bw w -> b_line (l_text (LBandwidth w) ++ 13 :: b) = Some (13 :: b, LBandwidth w).
Proof.
  intros [t n] b [H1 H2]. cbn [bw_type bw_value l_text] in *. unfold b_line. rewrite <- !app_assoc. cbn [app].
  rewrite (bind_some _ _ _ _ _ _ _ (tag_app _ _ _ _)).
  erewrite bind_some by (apply take_till_app; [intros c Hc; specialize (H1 c Hc); lia|reflexivity]).
  erewrite bind_some by (apply (tag_app _ [58])).
  erewrite bind_some by (apply number_print; [assumption|reflexivity]). reflexivity.
Qed.
Lemma p_t_app : forall x y b, x <= u64_max -> y <= u64_max -> t_line (l_text (LTime x y) ++ 13 :: b) = Some (13 :: b, LTime x y).
Proof.
  intros x y b H1 H2. cbn [l_text]. unfold t_line. rewrite <- !app_assoc. cbn [app]. 
  rewrite (bind_some _ _ _ _ _ _ _ (tag_app _ _ _ _)).
  erewrite bind_some.
  2: { apply then_space_app; [apply number_print; [assumption|reflexivity]|].
       apply first_ok; [apply print_N_nonempty| |]. 
       - destruct (print_N y) as [|d l] eqn:E; [discriminate|]. cbn. pose proof (print_N_digits y d). rewrite E in H. specialize (H (or_introl eq_refl)). lia.
       - intros c Hc. apply print_N_digits in Hc. lia. }
  erewrite bind_some by (apply number_print; [assumption|reflexivity]). reflexivity.
Qed.
Lemma p_v_app : forall v b, v <= u8_max -> v_line (l_text (LVersion v) ++ 13 :: b) = Some (13 :: b, LVersion v).
Proof.
  intros v b H. cbn [l_text]. unfold v_line, pmap. rewrite <- !app_assoc. rewrite (bind_some _ _ _ _ _ _ _ (tag_app _ _ _ _)).
  erewrite bind_some by (apply number_print; [assumption|reflexivity]). reflexivity.
Qed.

Lemma word_bool : forall w, is_word w -> forallb (fun c => negb (is_ws c)) w = true.
Proof. intros w [_ H]. apply forallb_forall. intros c Hc. now rewrite (H c Hc). Qed.
Lemma split_ws_spaced : forall ws w, is_word w -> (forall x, In x ws -> is_word x) -> split_ws (w ++ flat_map (fun o => 32 :: o) ws) = w :: ws.
Proof.
  unfold split_ws. induction ws as [|x ws IH]; intros w Hw H.
  - cbn [flat_map]. rewrite split_ws_aux_word by now apply word_bool. cbn [split_ws_aux]. rewrite app_nil_r.
    destruct (rev w) eqn:E; [exfalso; destruct Hw as [Hw _]; apply Hw; rewrite <- (rev_involutive w), E; reflexivity|]. rewrite <- E, rev_involutive. reflexivity.
  - cbn [flat_map]. rewrite split_ws_aux_word by now apply word_bool. cbn [split_ws_aux app]. change (is_ws 32) with true. cbv iota. rewrite app_nil_r.
    destruct (rev w) eqn:E; [exfalso; destruct Hw as [Hw _]; apply Hw; rewrite <- (rev_involutive w), E; reflexivity|]. rewrite <- E, rev_involutive.
    f_equal. apply IH; [apply H; now left|]. intros y Hy. apply H. now right.
Qed.
Lemma word_line : forall w, is_word w -> one_line w.
Proof. intros w [_ H] c Hc. specialize (H c Hc). unfold is_ws, in_range in H. lia. Qed.
Lemma one_line_app : forall a b, one_line a -> one_line b -> one_line (a ++ b).
Proof. intros a b A B c Hc. apply in_app_or in Hc. destruct Hc; auto. Qed.
Lemma spaced_line : forall ws w, one_line w -> (forall x, In x ws -> one_line x) -> one_line (w ++ flat_map (fun o => 32 :: o) ws).
Proof.
  intros ws w Hw H. apply one_line_app; [exact Hw|]. intros c Hc. apply in_flat_map in Hc. destruct Hc as (x & Hx & [<-|Hc]); [lia|]. now apply (H x).
Qed.
Lemma p_r_app : forall r b, good_repeat r -> r_line (l_text (LRepeat r) ++ 13 :: b) = Some (13 :: b, LRepeat r).
Proof.
  intros [i d o] b (H1 & H2 & H3). cbn [rp_interval rp_duration rp_offsets l_text] in *. unfold r_line, pmap. rewrite <- (app_assoc (lit "r=")).
  rewrite (bind_some _ _ _ _ _ _ _ (tag_app _ _ _ _)).
  change (i ++ 32 :: d ++ flat_map (fun o0 => 32 :: o0) o) with (i ++ flat_map (fun o0 => 32 :: o0) (d :: o)).
  assert (forall x, In x (d :: o) -> is_word x) by (intros x [<-|Hx]; auto).
  erewrite bind_some by (apply to_eol_app, spaced_line; [now apply word_line|intros x Hx; apply word_line; auto]).
  unfold pure. cbv zeta. rewrite split_ws_spaced by auto. reflexivity.
Qed.
Definition zone_words (l : list time_zone) : list str := flat_map (fun z => [tz_time z; tz_offset z]) l.
Lemma zones_words : forall l, zones (zone_words l) = l.
Proof. induction l as [|[t o] l IH]; [reflexivity|]. cbn [zone_words flat_map app zones tz_time tz_offset]. fold (zone_words l). now rewrite IH. Qed.
Lemma zone_join : forall l z, join [32] (map zone_text (z :: l)) = tz_time z ++ flat_map (fun o => 32 :: o) (tz_offset z :: zone_words l).
Proof.
  induction l as [|y l IH]; intros z.
  - cbn [map join zone_words flat_map]. unfold zone_text. now rewrite app_nil_r.
  - change (join [32] (map zone_text (z :: y :: l))) with (zone_text z ++ [32] ++ join [32] (map zone_text (y :: l))). rewrite IH.
    unfold zone_text. cbn [zone_words flat_map app]. rewrite <- !app_assoc. reflexivity.
Qed.
Lemma p_z_app : forall l b, l <> [] -> (forall z, In z l -> good_zone z) -> z_line (l_text (LZone l) ++ 13 :: b) = Some (13 :: b, LZone l).
Proof.
  intros [|z l] b Hn H; [congruence|]. cbn [l_text]. rewrite zone_join. unfold z_line, pmap. rewrite <- (app_assoc (lit "z=")).
  rewrite (bind_some _ _ _ _ _ _ _ (tag_app _ _ _ _)).
  assert (W : forall x, In x (tz_offset z :: zone_words l) -> is_word x).
  { intros x [<-|Hx]; [apply (H z (or_introl eq_refl))|]. apply in_flat_map in Hx. destruct Hx as (y & Hy & Hx).
    destruct (H y (or_intror Hy)). cbn in Hx. destruct Hx as [<-|[<-|[]]]; assumption. }
  assert (W0 : is_word (tz_time z)) by apply (H z (or_introl eq_refl)).
  erewrite bind_some by (apply to_eol_app, spaced_line; [now apply word_line|intros x Hx; apply word_line; auto]).
  unfold pure. rewrite split_ws_spaced by auto. change (tz_time z :: tz_offset z :: zone_words l) with (zone_words (z :: l)). now rewrite zones_words.
Qed.
Lemma p_a_app : forall a b, good_attr a -> a_line (l_text (LAttr a) ++ 13 :: b) = Some (13 :: b, LAttr a).
Proof.
  intros [n|n v] b H; cbn [l_text good_attr] in *; unfold a_line, pmap; rewrite <- (app_assoc (lit "a=")); rewrite (bind_some _ _ _ _ _ _ _ (tag_app _ _ _ _)).
  - destruct H as [[H1 H2] H3]. erewrite bind_some; [reflexivity|]. unfold orelse.
    erewrite bind_some.
    2: { apply take_till_app; [|reflexivity]. intros c Hc. destruct (H1 c Hc). destruct (N.eqb_spec c 58) as [->|]; [contradiction|]. unfold eol. cbn [orb]. lia. }
    cbn [bind tag]. change (bind (tag [58] tt) _ (13 :: b)) with (@None (str * attribute)).
    cbv iota. erewrite bind_some by now apply to_eol_app. unfold pure. now rewrite H2.
  - destruct H as (H1 & H2 & H3 & H4). erewrite bind_some; [reflexivity|]. unfold orelse. rewrite <- app_assoc. cbn [app].
    erewrite bind_some.
    2: { apply take_till_app; [|reflexivity]. intros c Hc. destruct (H1 c Hc). destruct (N.eqb_spec c 58) as [->|]; [contradiction|]. unfold eol. cbn [orb]. lia. }
    erewrite bind_some by (apply (tag_app _ [58])). erewrite bind_some by now apply to_eol_app. unfold pure. now rewrite H4.
Qed.
Definition word_stop (c : N) : bool := (c =? 32) || (c =? 13) || (c =? 10).
Lemma word_app : forall w b, (forall c, In c w -> c <> 32 /\ c <> 13 /\ c <> 10) -> stops word_stop b -> word (w ++ b) = Some (b, w).
Proof. intros w b H B. apply take_till_app; [|exact B]. intros c Hc. destruct (H c Hc) as (? & ? & ?). lia. Qed.
Lemma type_chars : forall t, good_type t -> forall c, In c (media_type_text t) -> c <> 32 /\ c <> 13 /\ c <> 10.
Proof.
  intros [] H c Hc; try (vm_compute in Hc; decompose [or] Hc; subst; try contradiction; lia). now apply H.
Qed.
Lemma type_back : forall t, good_type t -> media_type_of (media_type_text t) = t.
Proof.
  intros [] H; try reflexivity. destruct H as (_ & _ & H1 & H2 & H3 & H4 & H5). unfold media_type_of. cbn [media_type_text].
  rewrite <- str_eqb_neq in H1, H2, H3, H4, H5. now rewrite H1, H2, H3, H4, H5.
Qed.
Lemma tag_none : forall A (v : A) k n r, ~ In 32 k -> ~ (exists q, n = k ++ q) -> tag k v (n ++ 32 :: r) = None.
Proof.
  intros A v k n r Hk Hn. unfold tag. destruct (strip_prefix k (n ++ 32 :: r)) eqn:E; [|reflexivity]. exfalso. apply strip_prefix_some in E.
  apply Hn. clear Hn. revert k Hk E. induction n as [|c n IH]; intros k Hk E.
  - destruct k as [|x k]; [now exists []|]. exfalso. cbn in E. inversion E. subst. apply Hk. now left.
  - destruct k as [|x k]; [now exists (c :: n)|]. cbn in E. inversion E. subst. destruct (IH k) as [q ->]; [intros Hi; apply Hk; now right|assumption|]. now exists q.
Qed.
Lemma proto_app : forall p r, good_proto p -> proto (proto_text p ++ 32 :: r) = Some (32 :: r, p).
Proof.
  intros [] r H; try reflexivity. destruct H as [H1 H2]. cbn [proto_text]. unfold proto, orelse.
  rewrite !tag_none; try (vm_compute; intuition lia); try (intros Hq; refine (H2 _ _ Hq); cbn; tauto).
  unfold pmap. erewrite bind_some; [reflexivity|]. apply word_app; [apply H1|reflexivity].
Qed.
Lemma more_words_app : forall fs k b, (length fs <= k)%nat -> (forall f, In f fs -> is_token f) ->
  more_words k (flat_map (fun f => 32 :: f) fs ++ 13 :: b) = (13 :: b, fs).
Proof.
  induction fs as [|f fs IH]; intros k b Hk H.
  - destruct k; reflexivity.
  - destruct k as [|k]; [cbn in Hk; lia|]. cbn [flat_map more_words app]. rewrite <- app_assoc.
    destruct (H f (or_introl eq_refl)) as (F1 & F2 & F3).
    rewrite space1_one by (apply first_ok; [assumption..|]; intros c Hc; now apply F3).
    rewrite word_app; [|exact F3|destruct fs; reflexivity].
    rewrite IH; [reflexivity|cbn in Hk; lia|]. intros x Hx. apply H. now right.
Qed.
Lemma spaced_length : forall (fs : list str) b, (length fs <= length (flat_map (fun f => 32%N :: f) fs ++ b))%nat.
Proof. intros fs b. rewrite app_length. induction fs as [|f fs IH]; [cbn; lia|]. cbn [flat_map app length]. rewrite app_length. lia. Qed.
Lemma print_first : forall n b, match print_N n ++ b with [] => True | c :: _ => space_tab c = false end.
Proof.
  intros n b. apply first_ok; [apply print_N_nonempty| |intros c Hc; apply print_N_digits in Hc; lia].
  destruct (print_N n) as [|d l] eqn:E; [discriminate|]. cbn. pose proof (print_N_digits n d). rewrite E in H. specialize (H (or_introl eq_refl)). lia.
Qed.
Lemma port_app : forall p n r, p <= u16_max -> if_any (fun x => x <= u16_max) n ->
  port (print_N p ++ match n with Some x => 47 :: print_N x | None => [] end ++ 32 :: r) = Some (32 :: r, (p, n)).
Proof.
  intros p [n|] r H1 H2; unfold port.
  - erewrite bind_some by (apply number_print; [assumption|reflexivity]). unfold orelse. cbn [app].
    erewrite bind_some by (apply (tag_app _ [47])). erewrite bind_some by (apply number_print; [assumption|reflexivity]). reflexivity.
  - erewrite bind_some by (apply number_print; [assumption|reflexivity]). reflexivity.
Qed.
Lemma p_m_app : forall m b, good_head m -> m_line (l_text (LMedia m) ++ 13 :: b) = Some (13 :: b, LMedia m).
Proof.
  intros m b (H1 & H2 & H3 & H4 & H5 & H6 & H7). cbn [l_text]. unfold m_line. rewrite <- (app_assoc (lit "m=")).
  rewrite (bind_some _ _ _ _ _ _ _ (tag_app _ _ _ _)). rewrite <- !app_assoc. cbn [app]. rewrite <- !app_assoc. cbn [app]. rewrite <- !app_assoc. 
  erewrite bind_some.
  2: { apply then_space_app; [apply word_app; [now apply type_chars|reflexivity]|]. apply print_first. }
  erewrite bind_some.
  2: { apply then_space_app; [now apply port_app|].
       destruct (md_proto m) as [| | | | | | |n]; try reflexivity. destruct H4 as [(K1 & K2 & K3) _]. cbn [proto_text]. apply first_ok; auto. intros c Hc. now apply K3. }
  destruct (md_formats m) as [|f fs] eqn:EF; [congruence|]. cbn [flat_map app].
  destruct (H6 f (or_introl eq_refl)) as (F1 & F2 & F3).
  rewrite <- !app_assoc.
  erewrite bind_some.
  2: { apply then_space_app; [now apply proto_app|]. apply first_ok; auto. intros c Hc. now apply F3. }
  erewrite (bind_some _ _ words).
  2: { unfold words. erewrite bind_some by (apply word_app; [exact F3|destruct fs; reflexivity]).
       rewrite more_words_app; [reflexivity|apply spaced_length|]. intros x Hx. apply H6. now right. }
  unfold pure. cbn [fst snd]. rewrite type_back by assumption. rewrite <- EF. f_equal. f_equal. f_equal. exact H7.
Qed.
Theorem line_reads : forall l b, good_line l -> p_line (l_text l ++ 13 :: 10 :: b) = Some (13 :: 10 :: b, l).
Proof.
  intros l b H. destruct l; cbn [good_line] in H.
  - pose proof (p_v_app v (10 :: b) H) as E. cbn [l_text] in *. rewrite <- app_assoc in *. now rewrite p_v.
  - pose proof (p_o_app o (10 :: b) H) as E. cbn [l_text] in *. rewrite <- (app_assoc (lit "o=")) in *. now rewrite p_o.
  - cbn [l_text]. rewrite <- app_assoc. rewrite p_s. now apply text_line_app.
  - cbn [l_text]. rewrite <- app_assoc. rewrite p_i. now apply text_line_app.
  - cbn [l_text]. rewrite <- app_assoc. rewrite p_u. now apply text_line_app.
  - cbn [l_text]. rewrite <- app_assoc. rewrite p_e. now apply text_line_app.
  - cbn [l_text]. rewrite <- app_assoc. rewrite p_p. now apply text_line_app.
  - pose proof (p_c_app c (10 :: b) H) as E. cbn [l_text]. rewrite <- !app_assoc. cbn [app]. change (lit "c=IN ") with (lit "c=" ++ lit "IN ") in *.
    rewrite <- (app_assoc (lit "c=")) in *. now rewrite p_c.
  - pose proof (p_b_app b0 (10 :: b) H) as E. cbn [l_text] in *. rewrite <- (app_assoc (lit "b=")) in *. now rewrite p_b.
  - destruct H as [Ha Hb]. pose proof (p_t_app a b0 (10 :: b) Ha Hb) as E. cbn [l_text] in *. rewrite <- (app_assoc (lit "t=")) in *. now rewrite p_t.
  - pose proof (p_r_app r (10 :: b) H) as E. cbn [l_text] in *. rewrite <- (app_assoc (lit "r=")) in *. now rewrite p_r.
  - destruct H as [Ha Hb]. pose proof (p_z_app l (10 :: b) Ha Hb) as E. cbn [l_text] in *. rewrite <- (app_assoc (lit "z=")) in *. now rewrite p_z.
  - cbn [l_text]. rewrite <- app_assoc. rewrite p_k. now apply text_line_app.
  - pose proof (p_a_app a (10 :: b) H) as E. destruct a; cbn [l_text] in *; rewrite <- (app_assoc (lit "a=")) in *; now rewrite p_a.
  - pose proof (p_m_app m (10 :: b) H) as E. cbn [l_text] in *. rewrite <- (app_assoc (lit "m=")) in *. now rewrite p_m.
Qed.

(** ** The lines of a description *)
Definition opt_ln {A} (f : A -> sdp_line) (x : option A) : list sdp_line := match x with Some a => [f a] | None => [] end.
Definition time_lines (t : time_desc) : list sdp_line := LTime (tm_start t) (tm_stop t) :: map LRepeat (tm_repeats t).
Definition media_lines (m : media) : list sdp_line :=
  LMedia (m_head m) :: opt_ln LInfo (md_title m) ++ opt_ln LConn (md_conn m) ++ map LBandwidth (md_bw m) ++ opt_ln LKey (md_key m) ++ map LAttr (md_attrs m).
Definition zone_lines (l : list time_zone) : list sdp_line := if is_nil l then [] else [LZone l].
Definition lines_of (s : sdp) : list sdp_line :=
  [LVersion (sd_version s); LOrigin (sd_origin s); LName (sd_name s)]
  ++ opt_ln LInfo (sd_info s) ++ opt_ln LUri (sd_uri s) ++ opt_ln LEmail (sd_email s) ++ opt_ln LPhone (sd_phone s) ++ opt_ln LConn (sd_conn s)
  ++ map LBandwidth (sd_bw s) ++ flat_map time_lines (sd_times s) ++ zone_lines (sd_zones s)
  ++ opt_ln LKey (sd_key s) ++ map LAttr (sd_attrs s) ++ flat_map media_lines (sd_media s).
Definition texts (l : list sdp_line) : str := flat_map (fun x => l_text x ++ crlf) l.
Lemma texts_app : forall a b, texts (a ++ b) = texts a ++ texts b.
Proof. intros. apply flat_map_app. Qed.
Lemma texts_map : forall A (f : A -> sdp_line) g l, (forall a, l_text (f a) ++ crlf = g a) -> texts (map f l) = flat_map g l.
Proof. intros A f g l H. unfold texts. induction l as [|a l IH]; [reflexivity|]. cbn [map flat_map]. now rewrite IH, H. Qed.
Lemma texts_opt : forall A (f : A -> sdp_line) g x, (forall a, l_text (f a) ++ crlf = g a) -> texts (opt_ln f x) = opt_line g x.
Proof. intros A f g [a|] H; [|reflexivity]. cbn. rewrite app_nil_r. apply H. Qed.
Lemma texts_flat : forall A (f : A -> list sdp_line) g l, (forall a, In a l -> texts (f a) = g a) -> texts (flat_map f l) = flat_map g l.
Proof.
  intros A f g l H. induction l as [|a l IH]; [reflexivity|]. cbn [flat_map]. rewrite texts_app, H by now left. rewrite IH; [reflexivity|]. intros x Hx. apply H. now right.
Qed.
Ltac assoc := repeat (rewrite <- ?app_assoc; cbn [app]; progress rewrite <- ?app_assoc); rewrite <- ?app_assoc; cbn [app].
Lemma bw_line_text : forall b, l_text (LBandwidth b) ++ crlf = bw_text b.
Proof. intros. unfold bw_text. cbn [l_text]. assoc. reflexivity. Qed.
Lemma conn_line_text : forall b, l_text (LConn b) ++ crlf = conn_text b.
Proof. intros. unfold conn_text. cbn [l_text]. now rewrite <- !app_assoc. Qed.
Lemma attr_line_text : forall a, l_text (LAttr a) ++ crlf = attr_text a.
Proof. intros []; unfold attr_text; cbn [l_text]; rewrite <- !app_assoc; reflexivity. Qed.
Lemma repeat_line_text : forall r, l_text (LRepeat r) ++ crlf = repeat_text r.
Proof. intros. unfold repeat_text. cbn [l_text]. assoc. reflexivity. Qed.
Lemma text_line_text : forall t s, (t ++ s) ++ crlf = text_of t s.
Proof. intros. unfold text_of. now rewrite <- app_assoc. Qed.
Lemma time_texts : forall t, texts (time_lines t) = time_text t.
Proof.
  intros t. unfold time_lines, texts, time_text. cbn [flat_map l_text]. fold (texts (map LRepeat (tm_repeats t))).
  rewrite (texts_map _ _ repeat_text) by apply repeat_line_text. assoc. reflexivity.
Qed.
Lemma media_texts : forall m, md_formats m <> [] -> texts (media_lines m) = media_text m.
Proof.
  intros m H. unfold media_lines, media_text. unfold texts at 1. cbn [flat_map]. fold (texts (opt_ln LInfo (md_title m) ++ opt_ln LConn (md_conn m) ++ map LBandwidth (md_bw m) ++ opt_ln LKey (md_key m) ++ map LAttr (md_attrs m))).
  rewrite !texts_app. rewrite (texts_opt _ LInfo (text_of (lit "i="))) by (intros; apply text_line_text).
  rewrite (texts_opt _ LKey (text_of (lit "k="))) by (intros; apply text_line_text).
  rewrite (texts_opt _ _ conn_text) by apply conn_line_text. rewrite (texts_map _ _ bw_text) by apply bw_line_text. rewrite (texts_map _ _ attr_text) by apply attr_line_text.
  cbn [l_text m_head md_type md_port md_ports md_proto md_formats]. destruct (md_formats m) as [|f fs]; [congruence|].
  cbn [flat_map]. assoc. reflexivity.
Qed.
Lemma serialize_lines : forall s, sd_times s <> [] -> (forall m, In m (sd_media s) -> md_formats m <> []) -> serialize s = texts (lines_of s).
Proof.
  intros s Ht Hm. unfold serialize, lines_of. cbv zeta. rewrite !texts_app.
  unfold texts at 1. cbn [flat_map]. 
  rewrite (texts_opt _ LInfo (text_of (lit "i="))) by (intros; apply text_line_text).
  rewrite (texts_opt _ LUri (text_of (lit "u="))) by (intros; apply text_line_text).
  rewrite (texts_opt _ LEmail (text_of (lit "e="))) by (intros; apply text_line_text).
  rewrite (texts_opt _ LPhone (text_of (lit "p="))) by (intros; apply text_line_text).
  rewrite (texts_opt _ LKey (text_of (lit "k="))) by (intros; apply text_line_text).
  rewrite (texts_opt _ _ conn_text) by apply conn_line_text. rewrite (texts_map _ _ bw_text) by apply bw_line_text. rewrite (texts_map _ _ attr_text) by apply attr_line_text.
  rewrite (texts_flat _ _ time_text) by (intros; apply time_texts). rewrite (texts_flat _ _ media_text) by (intros; apply media_texts; auto).
  cbn [l_text].
  destruct (sd_times s) as [|t ts]; [congruence|].
  assert (Z : texts (zone_lines (sd_zones s)) = match sd_zones s with [] => [] | l => lit "z=" ++ join [32] (map zone_text l) ++ crlf end).
  { unfold zone_lines. destruct (sd_zones s) as [|z zs]; [reflexivity|]. unfold texts. cbn [is_nil flat_map l_text]. now rewrite app_nil_r, <- app_assoc. }
  rewrite Z. unfold text_of. cbn [flat_map]. assoc. reflexivity.
Qed.
Lemma l_text_long : forall l, (2 <= length (l_text l))%nat.
Proof. intros l. destruct l; cbn [l_text]; try (rewrite app_length; cbn [lit length]; cbn; lia). destruct a; rewrite app_length; cbn; lia. Qed.
Lemma p_lines_reads : forall l k, (forall x, In x l -> good_line x) -> (length l < k)%nat -> p_lines k (texts l) = ([], l).
Proof.
  induction l as [|x l IH]; intros k H Hk; destruct k as [|k]; try (cbn in Hk; lia).
  - reflexivity.
  - unfold texts. cbn [flat_map p_lines]. fold (texts l). unfold crlf. rewrite <- app_assoc. cbn [app]. rewrite line_reads by (apply H; now left).
    change (skip_eol (13 :: 10 :: texts l)) with (texts l). rewrite IH; [reflexivity| |cbn in Hk; lia]. intros y Hy. apply H. now right.
Qed.
Lemma texts_length : forall l, (length l <= length (texts l))%nat.
Proof. intros l. unfold texts. induction l as [|x l IH]; [cbn; lia|]. cbn [flat_map length]. rewrite !app_length. cbn [crlf length]. lia. Qed.

(** ** Rebuilding the description from its lines *)
Lemma b_run_app : forall lim a b s, b_run lim s (a ++ b) = match b_run lim s a with Ok s' => b_run lim s' b | Err e => Err e end.
Proof. induction a as [|x a IH]; intros b s; [reflexivity|]. cbn [app b_run]. destruct (b_step lim s x); auto. Qed.
Lemma run_bw : forall lim v o n i u e p c ts t z k a ms l w,
  b_run lim (mkBuilding v o n i u e p c w ts t z k a ms None) (map LBandwidth l) = Ok (mkBuilding v o n i u e p c (w ++ l) ts t z k a ms None).
Proof. induction l as [|x l IH]; intros w; [now rewrite app_nil_r|]. cbn [map b_run b_step]. rewrite IH, <- app_assoc. reflexivity. Qed.
Lemma run_attrs : forall lim v o n i u e p c w ts t z k ms l a, llen (a ++ l) <= max_attrs lim ->
  b_run lim (mkBuilding v o n i u e p c w ts t z k a ms None) (map LAttr l) = Ok (mkBuilding v o n i u e p c w ts t z k (a ++ l) ms None).
Proof.
  induction l as [|x l IH]; intros a H; [now rewrite app_nil_r|]. cbn [map b_run b_step].
  assert (max_attrs lim <=? llen a = false) as -> by (rewrite llen_app, llen_cons in H; lia).
  rewrite IH by (rewrite <- app_assoc; exact H). rewrite <- app_assoc. reflexivity.
Qed.
Lemma word_not_nil : forall w, is_word w -> is_nil w = false.
Proof. intros [|] [H _]; [congruence|reflexivity]. Qed.
Lemma run_repeats : forall lim v o n i u e p c w ts x y z k a ms cur l rs, (forall r, In r l -> good_repeat r) ->
  b_run lim (mkBuilding v o n i u e p c w ts (Some (mkTime x y rs)) z k a ms cur) (map LRepeat l)
  = Ok (mkBuilding v o n i u e p c w ts (Some (mkTime x y (rs ++ l))) z k a ms cur).
Proof.
  induction l as [|r l IH]; intros rs H; [now rewrite app_nil_r|]. cbn [map b_run b_step tm_start tm_stop tm_repeats].
  destruct (H r (or_introl eq_refl)) as (H1 & H2 & _). rewrite !word_not_nil by assumption. cbn [orb].
  rewrite IH by (intros q Hq; apply H; now right). rewrite <- app_assoc. reflexivity.
Qed.
Definition push {A} (q : list A * option A) (d : A) : list A * option A := (fst q ++ opt_list (snd q), Some d).
Lemma push_all : forall A (l : list A) q, fst (fold_left push l q) ++ opt_list (snd (fold_left push l q)) = fst q ++ opt_list (snd q) ++ l.
Proof.
  induction l as [|d l IH]; intros q; cbn [fold_left]; [now rewrite app_nil_r|]. rewrite IH. unfold push. cbn [fst snd opt_list]. rewrite <- app_assoc. reflexivity.
Qed.
Lemma run_times : forall lim v o n i u e p c w z k a ms cur l q, (forall t, In t l -> good_time t) ->
  b_run lim (mkBuilding v o n i u e p c w (fst q) (snd q) z k a ms cur) (flat_map time_lines l)
  = Ok (mkBuilding v o n i u e p c w (fst (fold_left push l q)) (snd (fold_left push l q)) z k a ms cur).
Proof.
  induction l as [|d l IH]; intros q H; [reflexivity|]. cbn [flat_map]. rewrite b_run_app. unfold time_lines at 1. cbn [b_run b_step].
  rewrite run_repeats by apply (H d (or_introl eq_refl)). cbn [app].
  specialize (IH (push q d)). cbn [fold_left]. cbn [push fst snd] in IH. destruct d as [x y r]. cbn [tm_start tm_stop tm_repeats].
  apply IH. intros t Ht. apply H. now right.
Qed.
Lemma run_zones : forall lim v o n i u e p c w ts t k a ms cur l, (forall z, In z l -> good_zone z) ->
  b_run lim (mkBuilding v o n i u e p c w ts t [] k a ms cur) (zone_lines l) = Ok (mkBuilding v o n i u e p c w ts t l k a ms cur).
Proof.
  intros. destruct l as [|z l]; [reflexivity|]. unfold zone_lines. cbn [b_run b_step is_nil orb].
  assert (existsb (fun x => is_nil (tz_time x) || is_nil (tz_offset x)) (z :: l) = false) as ->; [|reflexivity].
  destruct (existsb _ _) eqn:E; [|reflexivity]. exfalso. apply existsb_exists in E. destruct E as (x & Hx & E). destruct (H x Hx) as [A B].
  rewrite !word_not_nil in E by assumption. discriminate.
Qed.
Definition strip (m : media) : media := m_maps [] m.
Lemma run_mbw : forall lim v o n i u e p c w ts t z k a ms l m, b_run lim (mkBuilding v o n i u e p c w ts t z k a ms (Some m)) (map LBandwidth l)
  = Ok (mkBuilding v o n i u e p c w ts t z k a ms (Some (m_bw (md_bw m ++ l) m))).
Proof.
  induction l as [|x l IH]; intros m; [rewrite app_nil_r; now destruct m|]. cbn [map b_run b_step set_cur]. cbn.
  unfold set_cur in *. cbn. rewrite IH. cbn [m_bw md_bw]. rewrite <- app_assoc. reflexivity.
Qed.
Lemma run_mattrs : forall lim v o n i u e p c w ts t z k a ms l m, llen (md_attrs m ++ l) <= max_attrs lim ->
  b_run lim (mkBuilding v o n i u e p c w ts t z k a ms (Some m)) (map LAttr l)
  = Ok (mkBuilding v o n i u e p c w ts t z k a ms (Some (with_attrs m (md_attrs m ++ l)))).
Proof.
  induction l as [|x l IH]; intros m H; [rewrite app_nil_r; now destruct m|]. cbn [map b_run b_step].
  assert (max_attrs lim <=? llen (md_attrs m) = false) as -> by (rewrite llen_app, llen_cons in H; lia).
  unfold set_cur. cbn [b_version b_origin b_name b_info b_uri b_email b_phone b_conn b_bw b_times b_time b_zones b_key b_attrs b_media b_cur].
  rewrite IH; cbn [with_attrs md_attrs]; rewrite <- app_assoc; [reflexivity|exact H].
Qed.
Lemma run_mopt : forall lim v o n i u e p c w ts t z k a ms (x : option str) m f g,
  (forall s, b_step lim (mkBuilding v o n i u e p c w ts t z k a ms (Some m)) (f s) = Ok (mkBuilding v o n i u e p c w ts t z k a ms (Some (g (Some s) m)))) ->
  (x = None -> g None m = m) ->
  b_run lim (mkBuilding v o n i u e p c w ts t z k a ms (Some m)) (opt_ln f x) = Ok (mkBuilding v o n i u e p c w ts t z k a ms (Some (g x m))).
Proof. intros. destruct x as [s|]; cbn [opt_ln b_run]; [now rewrite H|]. now rewrite H0. Qed.
Lemma run_media : forall lim v o n i u e p c w ts t z k a l q, (forall m, In m l -> llen (md_attrs m) <= max_attrs lim) ->
  b_run lim (mkBuilding v o n i u e p c w ts t z k a (fst q) (snd q)) (flat_map media_lines l)
  = Ok (mkBuilding v o n i u e p c w ts t z k a (fst (fold_left push (map strip l) q)) (snd (fold_left push (map strip l) q))).
Proof.
  induction l as [|d l IH]; intros q H; [reflexivity|]. cbn [flat_map]. rewrite b_run_app. unfold media_lines at 1. cbn [b_run b_step].
  rewrite b_run_app.
  rewrite (run_mopt _ _ _ _ _ _ _ _ _ _ _ _ _ _ _ _ (md_title d) (m_head d) LInfo m_title) by (reflexivity || (intros; reflexivity)).
  assert (C : forall m, md_conn m = None -> b_run lim (mkBuilding v o n i u e p c w ts t z k a (fst q ++ opt_list (snd q)) (Some m)) (opt_ln LConn (md_conn d))
    = Ok (mkBuilding v o n i u e p c w ts t z k a (fst q ++ opt_list (snd q)) (Some (m_conn (md_conn d) m)))).
  { intros m Hm. destruct (md_conn d); [reflexivity|]. cbn [opt_ln b_run]. destruct m. cbn in Hm. now subst. }
  rewrite b_run_app, C by reflexivity. rewrite b_run_app, run_mbw. rewrite b_run_app.
  rewrite (run_mopt _ _ _ _ _ _ _ _ _ _ _ _ _ _ _ _ (md_key d) _ LKey m_key) by (reflexivity || (intros; reflexivity)).
  rewrite run_mattrs by (apply (H d (or_introl eq_refl))).
  specialize (IH (push q (strip d))). cbn [fold_left map]. cbn [push fst snd] in IH.
  destruct d. apply IH. intros m Hm. apply H. now right.
Qed.
Lemma is_token_nil : forall l, (forall f, In f l -> is_token f) -> existsb is_nil l = false.
Proof.
  intros l H. destruct (existsb is_nil l) eqn:E; [|reflexivity]. exfalso. apply existsb_exists in E. destruct E as (f & Hf & E). destruct (H f Hf) as [Hn _].
  destruct f; [congruence|discriminate].
Qed.
Lemma good_media_valid : forall lim m, good_media lim m -> valid_media (strip m) = true.
Proof.
  intros lim m (H1 & _ & _ & _ & H2 & H3 & H4 & _). unfold valid_media, strip. cbn [m_maps md_type md_formats md_proto].
  rewrite is_token_nil by assumption. destruct (md_formats m) as [|f fs] eqn:EF; [congruence|]. cbn [is_nil].
  assert ((match md_type m with MOther n => is_nil n | _ => false end) = false) as ->.
  { destruct (md_type m); try reflexivity. destruct H1 as [H1 _]. destruct name; [congruence|reflexivity]. }
  cbn [negb andb]. destruct (is_rtp (md_proto m)); [|reflexivity]. cbn [negb orb]. apply forallb_forall. intros x Hx. specialize (H4 eq_refl x Hx). now destruct (payload_type x).
Qed.
Lemma b_medias_strip : forall lim l, (forall m, In m l -> good_media lim m) -> b_medias (map strip l) = Ok l.
Proof.
  intros lim. induction l as [|m l IH]; intros H; [reflexivity|]. cbn [map b_medias]. rewrite (good_media_valid lim m (H m (or_introl eq_refl))).
  rewrite IH by (intros x Hx; apply H; now right). f_equal. f_equal.
  assert (E : md_maps m = maps_of (md_attrs m)) by apply (H m (or_introl eq_refl)). destruct m. cbn in *. now rewrite <- E.
Qed.
Lemma run_i : forall lim v o n u e p c w ts t z k a ms (x : option str), b_run lim (mkBuilding v o n None u e p c w ts t z k a ms None) (opt_ln LInfo x) = Ok (mkBuilding v o n x u e p c w ts t z k a ms None).
Proof. intros. now destruct x. Qed.
Lemma run_u : forall lim v o n i e p c w ts t z k a ms (x : option str), b_run lim (mkBuilding v o n i None e p c w ts t z k a ms None) (opt_ln LUri x) = Ok (mkBuilding v o n i x e p c w ts t z k a ms None).
Proof. intros. now destruct x. Qed.
Lemma run_e : forall lim v o n i u p c w ts t z k a ms (x : option str), b_run lim (mkBuilding v o n i u None p c w ts t z k a ms None) (opt_ln LEmail x) = Ok (mkBuilding v o n i u x p c w ts t z k a ms None).
Proof. intros. now destruct x. Qed.
Lemma run_p : forall lim v o n i u e c w ts t z k a ms (x : option str), b_run lim (mkBuilding v o n i u e None c w ts t z k a ms None) (opt_ln LPhone x) = Ok (mkBuilding v o n i u e x c w ts t z k a ms None).
Proof. intros. now destruct x. Qed.
Lemma run_c : forall lim v o n i u e p w ts t z k a ms (x : option connection), b_run lim (mkBuilding v o n i u e p None w ts t z k a ms None) (opt_ln LConn x) = Ok (mkBuilding v o n i u e p x w ts t z k a ms None).
Proof. intros. now destruct x. Qed.
Lemma run_k : forall lim v o n i u e p c w ts t z a ms (x : option str), b_run lim (mkBuilding v o n i u e p c w ts t z None a ms None) (opt_ln LKey x) = Ok (mkBuilding v o n i u e p c w ts t z x a ms None).
Proof. intros. now destruct x. Qed.
Lemma head_good : forall lim m, good_media lim m -> good_head (m_head m).
Proof. intros lim m (H1 & H2 & H3 & H4 & H5 & H6 & _). unfold good_head. cbn [m_head md_type md_port md_ports md_proto md_formats]. auto 10. Qed.
Lemma opt_good : forall A (f : A -> sdp_line) x y, In y (opt_ln f x) -> if_any (fun a => good_line (f a)) x -> good_line y.
Proof. intros A f [a|] y H G; [destruct H as [<-|[]]; exact G|destruct H]. Qed.
Lemma map_good : forall A (f : A -> sdp_line) l y, In y (map f l) -> (forall a, In a l -> good_line (f a)) -> good_line y.
Proof. intros A f l y H G. apply in_map_iff in H. destruct H as (a & <- & Ha). auto. Qed.
Lemma lines_good : forall lim s, good_sdp lim s -> forall x, In x (lines_of s) -> good_line x.
Proof.
  intros lim s (H1 & H2 & H3 & H4 & H5 & H6 & H7 & H8 & H9 & H10 & H11 & H12 & H13 & H14 & H15 & H16) x H. unfold lines_of in H.
  repeat (apply in_app_or in H; destruct H as [H|H]).
  - destruct H as [<-|[<-|[<-|[]]]]; cbn; auto. rewrite H1. unfold u8_max. lia.
  - now apply (opt_good _ _ _ _ H).
  - now apply (opt_good _ _ _ _ H).
  - now apply (opt_good _ _ _ _ H).
  - now apply (opt_good _ _ _ _ H).
  - now apply (opt_good _ _ _ _ H).
  - now apply (map_good _ _ _ _ H).
  - apply in_flat_map in H. destruct H as (t & Ht & [<-|H]); destruct (H11 t Ht) as (T1 & T2 & T3); [split; assumption|]. now apply (map_good _ _ _ _ H).
  - unfold zone_lines in H. destruct (sd_zones s) as [|z zs]; [destruct H|]. destruct H as [<-|[]]. split; [discriminate|assumption].
  - now apply (opt_good _ _ _ _ H).
  - now apply (map_good _ _ _ _ H).
  - apply in_flat_map in H. destruct H as (m & Hm & H). pose proof (H16 m Hm) as G. unfold media_lines in H. destruct H as [<-|H]; [now apply (head_good lim)|].
    destruct G as (_ & _ & _ & _ & _ & _ & _ & G1 & G2 & G3 & G4 & G5 & _).
    repeat (apply in_app_or in H; destruct H as [H|H]); first [now apply (opt_good _ _ _ _ H) | now apply (map_good _ _ _ _ H)].
Qed.
Lemma lines_rebuild : forall lim s, good_sdp lim s ->
  match b_run lim building0 (lines_of s) with Ok b => b_finish b | Err e => Err e end = Ok s.
Proof.
  intros lim [v o n i u e p c w ts z k a ms]. unfold good_sdp, lines_of. cbn [sd_version sd_origin sd_name sd_info sd_uri sd_email sd_phone sd_conn sd_bw sd_times sd_zones sd_key sd_attrs sd_media].
  intros (H1 & H2 & H3 & H4 & H5 & H6 & H7 & H8 & H9 & H10 & H11 & H12 & H13 & H14 & H15 & H16).
  rewrite b_run_app. cbn [b_run b_step building0].
  rewrite b_run_app, (run_i lim).
  rewrite b_run_app, (run_u lim).
  rewrite b_run_app, (run_e lim).
  rewrite b_run_app, (run_p lim).
  rewrite b_run_app, (run_c lim).
  rewrite b_run_app, run_bw. cbn [app].
  rewrite b_run_app, (run_times lim _ _ _ _ _ _ _ _ _ _ _ _ _ _ ts ([], None)) by assumption.
  rewrite b_run_app, run_zones by assumption.
  rewrite b_run_app, (run_k lim). rewrite b_run_app, run_attrs by assumption. cbn [app].
  rewrite (run_media lim _ _ _ _ _ _ _ _ _ _ _ _ _ _ ms ([], None)) by (intros m Hm; apply (H16 m Hm)).
  unfold b_finish. cbn [b_version b_origin b_name b_info b_uri b_email b_phone b_conn b_bw b_times b_time b_zones b_key b_attrs b_media b_cur].
  rewrite !push_all. cbn [fst snd opt_list app]. subst v. change (negb (0 =? 0)) with false. cbv iota.
  destruct ts as [|t ts]; [congruence|]. cbn [is_nil]. rewrite (b_medias_strip lim) by assumption. reflexivity.
Qed.
Theorem reads_back : forall lim s, good_sdp lim s -> within lim (serialize s) = true -> parse_with lim (serialize s) = Ok s.
Proof.
  intros lim s G W. unfold parse_with. rewrite W. cbn [negb]. 
  assert (E : serialize s = texts (lines_of s)).
  { apply serialize_lines; [apply G|]. intros m Hm. apply G in Hm. apply Hm. }
  rewrite E, p_lines_reads; [|now apply lines_good with lim|pose proof (texts_length (lines_of s)); lia].
  change (is_nil (trim [])) with true. cbn [negb]. now apply lines_rebuild.
Qed.

(** ** Backwards: what has been read is well formed *)
Lemma bind_inv : forall A B (p : parser A) (f : A -> parser B) s x, bind p f s = Some x -> exists r a, p s = Some (r, a) /\ f a r = Some x.
Proof. intros A B p f s x H. unfold bind in H. destruct (p s) as [[r a]|]; [|discriminate]. now exists r, a. Qed.
Lemma span_inv : forall p s a b, span p s = (a, b) -> s = a ++ b /\ (forall c, In c a -> p c = true) /\ match b with [] => True | c :: _ => p c = false end.
Proof.
  induction s as [|c s IH]; intros a b H; cbn [span] in H.
  - inversion H. subst. split; [reflexivity|]. split; [intros ? []|exact I].
  - destruct (p c) eqn:E.
    + destruct (span p s) as [x y]. inversion H. subst. destruct (IH _ _ eq_refl) as (-> & H2 & H3). split; [reflexivity|]. split; [|exact H3]. intros d [<-|Hd]; auto.
    + inversion H. subst. split; [reflexivity|]. split; [intros ? []|exact E].
Qed.
Lemma take_till_inv : forall p s b a, take_till p s = Some (b, a) -> s = a ++ b /\ (forall c, In c a -> p c = false) /\ stops p b.
Proof.
  intros p s b a H. unfold take_till in H. destruct (span _ s) as [x y] eqn:E. inversion H. subst. apply span_inv in E. destruct E as (H1 & H2 & H3).
  split; [exact H1|]. split; [intros c Hc; specialize (H2 c Hc); now destruct (p c)|]. destruct b; [exact I|]. cbn. now destruct (p n).
Qed.
Definition starts_ok (b : str) : Prop := match b with [] => True | c :: _ => space_tab c = false end.
Lemma space1_inv : forall s r u, space1 s = Some (r, u) -> starts_ok r /\ ~ starts_ok s.
Proof.
  intros s r u H. unfold space1 in H. destruct (span space_tab s) as [a b] eqn:E. apply span_inv in E. destruct E as (E1 & E2 & E3).
  destruct a as [|x a]; [discriminate|]. inversion H. subst. split; [exact E3|]. cbn. rewrite (E2 x (or_introl eq_refl)). discriminate.
Qed.
Lemma then_space_inv : forall A (p : parser A) s r a, then_space p s = Some (r, a) -> exists q, p s = Some (q, a) /\ ~ starts_ok q /\ starts_ok r.
Proof.
  intros A p s r a H. unfold then_space in H. apply bind_inv in H. destruct H as (q & x & H1 & H). apply bind_inv in H. destruct H as (q' & y & H2 & H).
  inversion H. subst. apply space1_inv in H2. exists q. tauto.
Qed.
Lemma number_inv : forall mx s r n, number mx s = Some (r, n) -> n <= mx.
Proof.
  intros mx s r n H. unfold number in H. destruct (span is_digit s) as [a b]. destruct a as [|d a]; [discriminate|].
  destruct (parse_uint mx (d :: a)) eqn:E; [|discriminate]. inversion H. subst. now apply SdpProofs.parse_uint_max in E.
Qed.
Lemma tag_inv : forall A t (v : A) s r x, tag t v s = Some (r, x) -> s = t ++ r /\ x = v.
Proof. intros A t v s r x H. unfold tag in H. destruct (strip_prefix t s) eqn:E; [|discriminate]. inversion H. subst. apply strip_prefix_some in E. auto. Qed.
Lemma to_eol_inv : forall s r a, to_eol s = Some (r, a) -> one_line a.
Proof. intros s r a H. apply take_till_inv in H. destruct H as (_ & H & _). intros c Hc. specialize (H c Hc). unfold eol in H. lia. Qed.
Lemma trim_line : forall a, one_line a -> one_line (trim a).
Proof.
  intros a H c Hc. destruct (trim_by_sub is_ws a) as (x & y & E & _). apply H. rewrite E. apply in_or_app. right. apply in_or_app. now left.
Qed.
Lemma trim_tidy : forall a, one_line a -> tidy (trim a).
Proof. intros a H. split; [now apply trim_line|apply trim_idem]. Qed.
Lemma trim_end_idem : forall s, trim_end (trim_end s) = trim_end s.
Proof.
  intros s. unfold trim_end. rewrite !trim_end_by_rev, rev_involutive. f_equal. 
  pose proof (drop_while_head is_ws (rev s)) as H. destruct (drop_while is_ws (rev s)) as [|c l] eqn:E; [reflexivity|].
  cbn [drop_while]. cbn in H. now rewrite H.
Qed.
Lemma trim_end_line : forall s, one_line s -> one_line (trim_end s).
Proof. intros s H c Hc. destruct (trim_end_by_prefix is_ws s) as (b & E & _). apply H. rewrite E. apply in_or_app. now left. Qed.
Definition maybe_word (s : str) : Prop := s = [] \/ is_word s.
Definition read_type (t : media_type) : Prop :=
  match t with
  | MOther n => (forall c, In c n -> c <> 32 /\ c <> 13 /\ c <> 10) /\ n <> lit "audio" /\ n <> lit "video" /\ n <> lit "text" /\ n <> lit "application" /\ n <> lit "message"
  | _ => True
  end.
Definition read_format (f : str) : Prop := f = [] \/ is_token f.
Definition read_head (m : media) : Prop :=
  read_type (md_type m) /\ md_port m <= u16_max /\ if_any (fun n => n <= u16_max) (md_ports m) /\ good_proto (md_proto m)
  /\ (forall f, In f (md_formats m) -> read_format f).
Definition read_line (l : sdp_line) : Prop :=
  match l with
  | LRepeat r => maybe_word (rp_interval r) /\ maybe_word (rp_duration r) /\ forall o, In o (rp_offsets r) -> is_word o
  | LZone l => forall z, In z l -> maybe_word (tz_time z) /\ maybe_word (tz_offset z)
  | LMedia m => read_head m /\ m_head m = m
  | _ => good_line l
  end.
Ltac binv H := let r := fresh "r" in let a := fresh "a" in let E := fresh "E" in apply bind_inv in H; destruct H as (r & a & E & H).
Lemma text_line_inv : forall t f s r l, text_line t f s = Some (r, l) -> exists x, l = f x /\ tidy x.
Proof.
  intros t f s r l H. unfold text_line in H. binv H. unfold pmap in H. binv H. inversion H. subst. apply to_eol_inv in E0. exists (trim a0). split; [reflexivity|now apply trim_tidy].
Qed.
Lemma field_inv : forall s r a, then_space (take_till (N.eqb 32)) s = Some (r, a) -> (forall c, In c a -> c <> 32) /\ starts_ok r /\ (starts_ok s -> a <> [] /\ hd 0 a <> 9).
Proof.
  intros s r a H. apply then_space_inv in H. destruct H as (q & H & Hq & Hr). apply take_till_inv in H. destruct H as (-> & H1 & H2).
  split; [intros c Hc; specialize (H1 c Hc); lia|]. split; [exact Hr|]. intros Hs. destruct a as [|c a].
  - contradiction.
  - split; [discriminate|]. cbn in Hs |- *. unfold space_tab in Hs. lia.
Qed.
Lemma o_inv : forall s r l, o_line s = Some (r, l) -> read_line l.
Proof.
  intros s r l H. unfold o_line in H. cbv zeta in H. do 7 binv H. inversion H. subst. cbn [read_line good_line].
  apply field_inv in E0, E1, E2. apply to_eol_inv in E5. destruct E0 as (A1 & A2 & _), E1 as (B1 & B2 & B3), E2 as (C1 & C2 & C3).
  specialize (B3 A2). specialize (C3 B2). split; [exact A1|]. split; [tauto|]. split; [tauto|]. now apply trim_tidy.
Qed.
Lemma c_inv : forall s r l, c_line s = Some (r, l) -> read_line l.
Proof. intros s r l H. unfold c_line in H. do 4 binv H. inversion H. subst. apply to_eol_inv in E2. cbn. now apply trim_tidy. Qed.
Lemma b_inv : forall s r l, b_line s = Some (r, l) -> read_line l.
Proof.
  intros s r l H. unfold b_line in H. do 4 binv H. inversion H. subst. apply take_till_inv in E0. apply number_inv in E2. destruct E0 as (_ & E0 & _). cbn.
  split; [|exact E2]. cbn. intros c Hc. specialize (E0 c Hc). lia.
Qed.
Lemma t_inv : forall s r l, t_line s = Some (r, l) -> read_line l.
Proof.
  intros s r l H. unfold t_line in H. do 3 binv H. inversion H. subst. apply number_inv in E1. apply then_space_inv in E0. destruct E0 as (q & E0 & _). apply number_inv in E0. now split.
Qed.
Lemma v_inv : forall s r l, v_line s = Some (r, l) -> read_line l.
Proof. intros s r l H. unfold v_line, pmap in H. do 2 binv H. inversion H. subst. exact (number_inv _ _ _ _ E0). Qed.
Lemma ws_aux_full : forall s cur w, In w (split_ws_aux cur s) -> w <> [].
Proof.
  assert (R : forall (x : N) l, rev (x :: l) <> []) by (intros x l H; apply (f_equal (@length N)) in H; rewrite rev_length in H; discriminate).
  induction s as [|c s IH]; intros cur w H; cbn [split_ws_aux] in H.
  - destruct cur as [|x cur]; [destruct H|]. destruct H as [<-|[]]. apply R.
  - destruct (is_ws c); [|now apply IH in H]. destruct cur as [|x cur]; [now apply IH in H|]. destruct H as [<-|H]; [apply R|now apply IH in H].
Qed.
Lemma ws_words : forall s w, In w (split_ws s) -> is_word w.
Proof.
  intros s w H. split; [now apply (ws_aux_full s [])|].
  apply (ViaProofs.ws_aux_chars s []); [intros ? []|exact H].
Qed.
Lemma nth_maybe : forall l k, (forall w, In w l -> is_word w) -> maybe_word (nth k l []).
Proof. intros l k H. destruct (nth_in_or_default k l []) as [Hi| ->]; [right; auto|now left]. Qed.
Lemma r_inv : forall s r l, r_line s = Some (r, l) -> read_line l.
Proof.
  intros s r l H. unfold r_line, pmap in H. do 2 binv H. inversion H. subst. cbv zeta. cbn [read_line rp_interval rp_duration rp_offsets].
  pose proof (ws_words a0) as W. split; [now apply nth_maybe|]. split; [now apply nth_maybe|]. intros o Ho. apply W.
  destruct (split_ws a0) as [|x [|y t]]; cbn [skipn] in Ho; [destruct Ho..|]. right. now right.
Qed.
Lemma zones_maybe : forall k l, (length l <= k)%nat -> (forall w, In w l -> is_word w) -> forall z, In z (zones l) -> maybe_word (tz_time z) /\ maybe_word (tz_offset z).
Proof.
  induction k as [|k IH]; intros l Hk H z Hz; [destruct l; [destruct Hz|cbn in Hk; lia]|]. destruct l as [|x [|y l]]; cbn [zones] in Hz.
  - destruct Hz.
  - destruct Hz as [<-|[]]. cbn. split; [right; apply H; now left|now left].
  - destruct Hz as [<-|Hz].
    + cbn. split; right; apply H; [now left|right; now left].
    + apply (IH l); [cbn in Hk; lia| |exact Hz]. intros w Hw. apply H. right. now right.
Qed.
Lemma z_inv : forall s r l, z_line s = Some (r, l) -> read_line l.
Proof.
  intros s r l H. unfold z_line, pmap in H. do 2 binv H. inversion H. subst. cbn [read_line]. apply (zones_maybe (length (split_ws a0))); [lia|apply ws_words].
Qed.
Lemma orelse_inv : forall A (p q : parser A) s x, orelse p q s = Some x -> p s = Some x \/ p s = None /\ q s = Some x.
Proof. intros A p q s x H. unfold orelse in H. destruct (p s); [left; exact H|now right]. Qed.
Lemma a_inv : forall s r l, a_line s = Some (r, l) -> read_line l.
Proof.
  intros s r l H. unfold a_line, pmap in H. do 2 binv H. inversion H. subst. apply orelse_inv in E0. cbn [read_line good_line]. destruct E0 as [E0|[E1 E0]].
  - do 3 binv E0. inversion E0. subst. apply take_till_inv in E1. destruct E1 as (_ & E1 & _). apply to_eol_inv in E3. cbn [good_attr].
    split; [intros c Hc; specialize (E1 c Hc); unfold eol in E1; lia|]. split; [intros Hc; specialize (E1 _ Hc); unfold eol in E1; lia|].
    split; [now apply trim_end_line|apply trim_end_idem].
  - binv E0. inversion E0. subst. pose proof (to_eol_inv _ _ _ E2) as L. cbn [good_attr]. split; [now apply trim_tidy|]. intros Hc.
    assert (In 58 a1) as Ha. { destruct (trim_by_sub is_ws a1) as (x & y & Ex & _). rewrite Ex. apply in_or_app. right. apply in_or_app. now left. }
    apply take_till_inv in E2. destruct E2 as (Es & E2 & _). subst r0.
    (* the first alternative would have stopped at that colon *)
    apply in_split in Ha. destruct Ha as (u & w & Ha).
    unfold bind in E1. unfold take_till in E1.
    destruct (span (fun c => negb ((c =? 58) || eol c)) (a1 ++ r)) as [x y] eqn:Sp. apply span_inv in Sp. destruct Sp as (S1 & S2 & S3).
    destruct y as [|c y].
    + rewrite app_nil_r in S1. assert (In 58 x) as Hx by (rewrite <- S1, Ha; apply in_or_app; left; apply in_or_app; right; now left). specialize (S2 _ Hx). discriminate.
    + destruct (N.eqb_spec c 58) as [->|Hn]; [exfalso; change (tag [58] tt (58 :: y)) with (Some (y, tt)) in E1; cbv iota in E1; unfold to_eol, take_till in E1; destruct (span _ y); discriminate E1|].
      assert (Ec : eol c = true) by (destruct (eol c); [reflexivity|discriminate S3]).
      (* the line end comes after the colon *)
      rewrite Ha in S1. rewrite <- app_assoc in S1.
      assert (exists x', x = u ++ 58 :: x') as [x' Hx'].
      { assert (Hu : forall d, In d u -> eol d = false) by (intros d Hd; apply E2; rewrite Ha; apply in_or_app; now left).
        clear - S1 Hu Ec Hn. revert x S1. induction u as [|d u IH]; intros x S1.
        - destruct x as [|e x]; cbn in S1; inversion S1; [congruence|]. now exists x.
        - destruct x as [|e x]; cbn in S1; inversion S1; subst.
          + rewrite (Hu c (or_introl eq_refl)) in Ec. discriminate.
          + destruct (IH (fun d Hd => Hu d (or_intror Hd)) x H1) as [x' ->]. now exists x'. }
      assert (In 58 x) as Hx by (rewrite Hx'; apply in_or_app; right; now left). specialize (S2 _ Hx). discriminate.
Qed.
Lemma word_inv : forall s r w, word s = Some (r, w) -> s = w ++ r /\ (forall c, In c w -> c <> 32 /\ c <> 13 /\ c <> 10).
Proof. intros s r w H. apply take_till_inv in H. destruct H as (H1 & H2 & _). split; [exact H1|]. intros c Hc. specialize (H2 c Hc). lia. Qed.
Lemma type_read : forall w, (forall c, In c w -> c <> 32 /\ c <> 13 /\ c <> 10) -> read_type (media_type_of w).
Proof.
  intros w H. unfold media_type_of. do 5 (let E := fresh "E" in destruct (str_eqb w _) eqn:E; [exact I|apply str_eqb_neq in E]). now repeat split; try apply H.
Qed.
Lemma token_read : forall s r w, word s = Some (r, w) -> starts_ok s -> read_format w.
Proof.
  intros s r w H S. apply word_inv in H. destruct H as [-> H]. destruct w as [|c w]; [now left|]. right. split; [discriminate|]. split; [|exact H].
  cbn in S |- *. unfold space_tab in S. lia.
Qed.
Lemma more_words_inv : forall k s r l, more_words k s = (r, l) -> forall f, In f l -> read_format f.
Proof.
  induction k as [|k IH]; intros s r l H f Hf; cbn [more_words] in H; [inversion H; subst; destruct Hf|].
  destruct (space1 s) as [[q u]|] eqn:E; [|inversion H; subst; destruct Hf]. apply space1_inv in E. destruct E as [E _].
  destruct (word q) as [[q' w]|] eqn:W; [|inversion H; subst; destruct Hf]. destruct (more_words k q') as [r2 l2] eqn:M. inversion H. subst.
  destruct Hf as [<-|Hf]; [now apply (token_read _ _ _ W)|]. now apply (IH _ _ _ M).
Qed.
Lemma words_inv : forall s r l, words s = Some (r, l) -> starts_ok s -> forall f, In f l -> read_format f.
Proof.
  intros s r l H S f Hf. unfold words in H. binv H. destruct (more_words _ _) as [x y] eqn:M. inversion H. subst. destruct Hf as [<-|Hf]; [now apply (token_read _ _ _ E)|].
  now apply (more_words_inv _ _ _ _ M).
Qed.
Lemma tag_none_inv : forall A k (v : A) s, tag k v s = None -> forall r, s <> k ++ r.
Proof. intros A k v s H r ->. now rewrite tag_app in H. Qed.
Lemma proto_inv : forall s r p, proto s = Some (r, p) -> starts_ok s -> ~ starts_ok r -> good_proto p.
Proof.
  intros s r p H S NR. unfold proto in H. do 7 (apply orelse_inv in H; destruct H as [H|[? H]]; [apply tag_inv in H; destruct H as [_ ->]; exact I|]).
  unfold pmap in H. binv H. inversion H. subst. pose proof (token_read _ _ _ E S) as [->|T]; [apply word_inv in E; destruct E as [-> _]; contradiction|]. split; [exact T|].
  intros k Hk [q ->]. apply word_inv in E. destruct E as [E _]. rewrite <- app_assoc in E. cbn [In known_protocols] in Hk.
  repeat (destruct Hk as [<-|Hk]; [match goal with E : s = ?k ++ _, T : tag ?k _ s = None |- _ => exact (tag_none_inv _ _ _ _ T _ E) end|]). destruct Hk.
Qed.
Lemma port_inv : forall s r p, port s = Some (r, p) -> fst p <= u16_max /\ if_any (fun n => n <= u16_max) (snd p).
Proof.
  intros s r p H. unfold port in H. binv H. apply number_inv in E. apply orelse_inv in H. destruct H as [H|[_ H]].
  - binv H. binv H. inversion H. subst. apply number_inv in E1. now split.
  - inversion H. subst. now split.
Qed.
Lemma m_inv : forall s r l, m_line s = Some (r, l) -> read_line l.
Proof.
  intros s r l H. unfold m_line in H. do 5 binv H. inversion H. subst. cbn [read_line]. split; [|reflexivity].
  apply then_space_inv in E0, E1, E2. destruct E0 as (q0 & E0 & _ & S0), E1 as (q1 & E1 & _ & S1), E2 as (q2 & E2 & Hq2 & S2).
  unfold read_head. cbn [md_type md_port md_ports md_proto md_formats]. split; [apply type_read; eapply word_inv; exact E0|].
  apply port_inv in E1. split; [tauto|]. split; [tauto|]. split; [|now apply (words_inv _ _ _ E3)].
  now apply (proto_inv _ _ _ E2).
Qed.
Lemma line_inv : forall s r l, p_line s = Some (r, l) -> read_line l.
Proof.
  intros s r l H. unfold p_line in H.
  assert (T : forall t f, text_line t f s = Some (r, l) -> (forall x, tidy x -> read_line (f x)) -> read_line l).
  { intros t f Hf G. apply text_line_inv in Hf. destruct Hf as (x & -> & Hx). auto. }
  apply orelse_inv in H; destruct H as [H|[_ H]]; [now apply v_inv in H|].
  apply orelse_inv in H; destruct H as [H|[_ H]]; [now apply o_inv in H|].
  do 5 (apply orelse_inv in H; destruct H as [H|[_ H]]; [apply (T _ _ H); intros; assumption|]).
  apply orelse_inv in H; destruct H as [H|[_ H]]; [now apply c_inv in H|].
  apply orelse_inv in H; destruct H as [H|[_ H]]; [now apply b_inv in H|].
  apply orelse_inv in H; destruct H as [H|[_ H]]; [now apply t_inv in H|].
  apply orelse_inv in H; destruct H as [H|[_ H]]; [now apply r_inv in H|].
  apply orelse_inv in H; destruct H as [H|[_ H]]; [now apply z_inv in H|].
  apply orelse_inv in H; destruct H as [H|[_ H]]; [apply (T _ _ H); intros; assumption|].
  apply orelse_inv in H; destruct H as [H|[_ H]]; [now apply a_inv in H|]. now apply m_inv in H.
Qed.
Lemma lines_inv : forall k s r l, p_lines k s = (r, l) -> forall x, In x l -> read_line x.
Proof.
  induction k as [|k IH]; intros s r l H x Hx; cbn [p_lines] in H; [inversion H; subst; destruct Hx|].
  destruct (p_line s) as [[q y]|] eqn:E; [|inversion H; subst; destruct Hx]. destruct (p_lines k (skip_eol q)) as [r2 ls] eqn:M. inversion H. subst.
  destruct Hx as [<-|Hx]; [now apply line_inv in E|]. now apply (IH _ _ _ M).
Qed.
Definition read_media (lim : limits) (m : media) : Prop :=
  read_head m /\ if_any tidy (md_title m) /\ if_any good_conn (md_conn m) /\ (forall b, In b (md_bw m) -> good_bw b)
  /\ if_any tidy (md_key m) /\ (forall a, In a (md_attrs m) -> good_attr a) /\ llen (md_attrs m) <= max_attrs lim.
Definition good_building (lim : limits) (b : building) : Prop :=
  if_any good_origin (b_origin b) /\ if_any tidy (b_name b) /\ if_any tidy (b_info b) /\ if_any tidy (b_uri b) /\ if_any tidy (b_email b)
  /\ if_any tidy (b_phone b) /\ if_any good_conn (b_conn b) /\ (forall x, In x (b_bw b) -> good_bw x) /\ (forall x, In x (b_times b) -> good_time x)
  /\ if_any good_time (b_time b) /\ (forall x, In x (b_zones b) -> good_zone x) /\ if_any tidy (b_key b) /\ (forall x, In x (b_attrs b) -> good_attr x)
  /\ llen (b_attrs b) <= max_attrs lim /\ (forall x, In x (b_media b) -> read_media lim x) /\ if_any (read_media lim) (b_cur b).
Lemma in_snoc : forall A (P : A -> Prop) l x, (forall y, In y l -> P y) -> P x -> forall y, In y (l ++ [x]) -> P y.
Proof. intros A P l x H Hx y Hy. apply in_app_or in Hy. destruct Hy as [Hy|[<-|[]]]; auto. Qed.
Lemma in_opt : forall A (P : A -> Prop) l x, (forall y, In y l -> P y) -> if_any P x -> forall y, In y (l ++ opt_list x) -> P y.
Proof. intros A P l [x|] H Hx y Hy; cbn [opt_list] in Hy; [|rewrite app_nil_r in Hy; auto]. apply in_app_or in Hy. destruct Hy as [Hy|[<-|[]]]; auto. Qed.
Lemma maybe_full : forall w, maybe_word w -> is_nil w = false -> is_word w.
Proof. intros w [->|H] E; [discriminate|exact H]. Qed.
Lemma step_good : forall lim b l b', good_building lim b -> read_line l -> b_step lim b l = Ok b' -> good_building lim b'.
Proof.
  intros lim [v o n i u e p c w ts t z k a ms cur] l b' G R H. unfold good_building in *. cbn [b_step] in H.
  cbn [b_version b_origin b_name b_info b_uri b_email b_phone b_conn b_bw b_times b_time b_zones b_key b_attrs b_media b_cur] in *.
  destruct G as (G1 & G2 & G3 & G4 & G5 & G6 & G7 & G8 & G9 & G10 & G11 & G12 & G13 & G14 & G15 & G16).
  destruct l; cbn [read_line good_line] in R.
  - inversion H. subst. cbn. auto 20.
  - inversion H. subst. cbn. auto 20.
  - inversion H. subst. cbn. auto 20.
  - destruct cur as [m|]; inversion H; subst; cbn [set_cur b_version b_origin b_name b_info b_uri b_email b_phone b_conn b_bw b_times b_time b_zones b_key b_attrs b_media b_cur if_any] in *; auto 20.
    destruct G16 as (M1 & M2 & M3 & M4 & M5 & M6 & M7). do 15 (split; [assumption|]). unfold read_media, m_title, read_head in *. cbn. auto 20.
  - inversion H. subst. cbn. auto 20.
  - inversion H. subst. cbn. auto 20.
  - inversion H. subst. cbn. auto 20.
  - destruct cur as [m|]; inversion H; subst; cbn [set_cur b_version b_origin b_name b_info b_uri b_email b_phone b_conn b_bw b_times b_time b_zones b_key b_attrs b_media b_cur if_any] in *; auto 20.
    destruct G16 as (M1 & M2 & M3 & M4 & M5 & M6 & M7). do 15 (split; [assumption|]). unfold read_media, m_conn, read_head in *. cbn. auto 20.
  - destruct cur as [m|]; inversion H; subst; cbn [set_cur b_version b_origin b_name b_info b_uri b_email b_phone b_conn b_bw b_times b_time b_zones b_key b_attrs b_media b_cur if_any] in *.
    + destruct G16 as (M1 & M2 & M3 & M4 & M5 & M6 & M7). do 15 (split; [assumption|]). unfold read_media, m_bw, read_head in *. cbn [md_type md_port md_ports md_proto md_formats md_title md_conn md_bw md_key md_attrs]. 
      do 3 (split; [assumption|]). split; [now apply in_snoc|]. auto 20.
    + do 7 (split; [assumption|]). split; [now apply in_snoc|]. auto 20.
  - inversion H. subst. cbn [b_version b_origin b_name b_info b_uri b_email b_phone b_conn b_bw b_times b_time b_zones b_key b_attrs b_media b_cur if_any].
    do 8 (split; [assumption|]). split; [now apply in_opt|]. split; [|auto 20]. destruct R. split; [assumption|]. split; [assumption|]. intros r [].
  - destruct (is_nil (rp_interval r) || is_nil (rp_duration r)) eqn:E; [discriminate|]. apply orb_false_iff in E. destruct E as [E1 E2].
    destruct t as [d|]; [|discriminate]. inversion H. subst. cbn [b_version b_origin b_name b_info b_uri b_email b_phone b_conn b_bw b_times b_time b_zones b_key b_attrs b_media b_cur if_any] in *.
    do 9 (split; [assumption|]). split; [|auto 20]. destruct G10 as (T1 & T2 & T3). split; [exact T1|]. split; [exact T2|]. cbn [tm_repeats]. apply in_snoc; [exact T3|].
    destruct R as (R1 & R2 & R3). split; [now apply maybe_full|]. split; [now apply maybe_full|exact R3].
  - destruct (is_nil l || existsb _ l) eqn:E; [discriminate|]. apply orb_false_iff in E. destruct E as [_ E]. inversion H. subst.
    cbn [b_version b_origin b_name b_info b_uri b_email b_phone b_conn b_bw b_times b_time b_zones b_key b_attrs b_media b_cur if_any] in *.
    do 10 (split; [assumption|]). split; [|auto 20]. intros x Hx. apply in_app_or in Hx. destruct Hx as [Hx|Hx]; [auto|].
    destruct (R x Hx) as [R1 R2]. assert (is_nil (tz_time x) || is_nil (tz_offset x) = false) as Ex.
    { destruct (is_nil (tz_time x) || is_nil (tz_offset x)) eqn:Ex; [|reflexivity]. rewrite <- E. symmetry. apply existsb_exists. now exists x. }
    apply orb_false_iff in Ex. split; apply maybe_full; tauto.
  - destruct cur as [m|]; inversion H; subst; cbn [set_cur b_version b_origin b_name b_info b_uri b_email b_phone b_conn b_bw b_times b_time b_zones b_key b_attrs b_media b_cur if_any] in *; auto 20.
    destruct G16 as (M1 & M2 & M3 & M4 & M5 & M6 & M7). do 15 (split; [assumption|]). unfold read_media, m_key, read_head in *. cbn. auto 20.
  - destruct cur as [m|]; (destruct (_ <=? _) eqn:E in H; [discriminate|]); inversion H; subst; cbn [set_cur b_version b_origin b_name b_info b_uri b_email b_phone b_conn b_bw b_times b_time b_zones b_key b_attrs b_media b_cur if_any] in *.
    + destruct G16 as (M1 & M2 & M3 & M4 & M5 & M6 & M7). do 15 (split; [assumption|]). unfold read_media, with_attrs, read_head in *. cbn [md_type md_port md_ports md_proto md_formats md_title md_conn md_bw md_key md_attrs]. 
      do 5 (split; [assumption|]). split; [now apply in_snoc|]. rewrite llen_app, llen_cons, llen_nil. lia.
    + do 12 (split; [assumption|]). split; [now apply in_snoc|]. split; [rewrite llen_app, llen_cons, llen_nil; lia|]. auto.
  - inversion H. subst. cbn [b_version b_origin b_name b_info b_uri b_email b_phone b_conn b_bw b_times b_time b_zones b_key b_attrs b_media b_cur if_any].
    do 14 (split; [assumption|]). split; [now apply in_opt|]. destruct R as [R1 R2]. split; [exact R1|]. rewrite <- R2. cbn [m_head md_title md_conn md_bw md_key md_attrs if_any].
    do 2 (split; [exact I|]). split; [intros ? []|]. split; [exact I|]. split; [intros ? []|]. unfold llen; cbn [length N.of_nat]; lia.
Qed.
Lemma run_good : forall lim l b b', good_building lim b -> (forall x, In x l -> read_line x) -> b_run lim b l = Ok b' -> good_building lim b'.
Proof.
  induction l as [|x l IH]; intros b b' G R H; cbn [b_run] in H; [inversion H; now subst|]. destruct (b_step lim b x) as [b1|] eqn:E; [|discriminate].
  apply (IH b1); [|intros y Hy; apply R; now right|exact H]. apply (step_good lim b x); [exact G|apply R; now left|exact E].
Qed.
Lemma medias_good : forall lim l r, (forall m, In m l -> read_media lim m) -> b_medias l = Ok r -> forall m, In m r -> good_media lim m.
Proof.
  induction l as [|m l IH]; intros r R H x Hx; cbn [b_medias] in H; [inversion H; subst; destruct Hx|].
  destruct (valid_media m) eqn:V; [|discriminate]. destruct (b_medias l) as [q|] eqn:E; [|discriminate]. inversion H. subst. destruct Hx as [<-|Hx]; [|apply (IH q); auto; intros y Hy; apply R; now right].
  destruct (R m (or_introl eq_refl)) as ((R1 & R2 & R3 & R4 & R5) & R6 & R7 & R8 & R9 & R10 & R11).
  unfold valid_media in V. apply andb_prop in V. destruct V as [V V4]. apply andb_prop in V. destruct V as [V V3]. apply andb_prop in V. destruct V as [V1 V2].
  unfold good_media. cbn [m_maps md_type md_port md_ports md_proto md_formats md_title md_conn md_bw md_key md_attrs md_maps].
  split. { destruct (md_type m); try exact I. cbn in R1 |- *. split; [|tauto]. intros ->. discriminate V1. }
  split; [exact R2|]. split; [exact R3|]. split; [exact R4|]. split; [intros E0; rewrite E0 in V2; discriminate|].
  split. { intros f Hf. destruct (R5 f Hf) as [->|T]; [|exact T]. exfalso. apply negb_true_iff in V3. assert (existsb is_nil (md_formats m) = true); [|congruence]. apply existsb_exists. now exists []. }
  split. { intros Er f Hf. rewrite Er in V4. cbn [negb orb] in V4. rewrite forallb_forall in V4. specialize (V4 f Hf). now destruct (payload_type f). }
  auto 20.
Qed.
Theorem read_good : forall lim t s, parse_with lim t = Ok s -> good_sdp lim s.
Proof.
  intros lim t s H. unfold parse_with in H. destruct (negb (within lim t)); [discriminate|]. destruct (p_lines (S (length t)) t) as [r l] eqn:E.
  destruct (negb (is_nil (trim r))); [discriminate|]. destruct (b_run lim building0 l) as [b|] eqn:B; [|discriminate].
  assert (G : good_building lim b).
  { apply (run_good lim l building0); [|apply (lines_inv _ _ _ _ E)|exact B]. unfold good_building. cbn [building0 b_version b_origin b_name b_info b_uri b_email b_phone b_conn b_bw b_times b_time b_zones b_key b_attrs b_media b_cur if_any].
    repeat match goal with |- True /\ _ => split; [exact I|] | |- (forall x, In x [] -> _) /\ _ => split; [intros ? []|] end. split; [unfold llen; cbn [length N.of_nat]; lia|]. split; [intros ? []|exact I]. }
  destruct G as (G1 & G2 & G3 & G4 & G5 & G6 & G7 & G8 & G9 & G10 & G11 & G12 & G13 & G14 & G15 & G16).
  unfold b_finish in H. cbv zeta in H. destruct (b_version b) as [v|]; [|discriminate]. destruct (v =? 0) eqn:Ev; [|discriminate]. apply N.eqb_eq in Ev. subst v. cbn [negb] in H.
  destruct (b_origin b) as [o|]; [|discriminate]. destruct (b_name b) as [n|]; [|discriminate].
  destruct (is_nil (b_times b ++ opt_list (b_time b))) eqn:Et; [discriminate|]. destruct (b_medias _) as [ms|] eqn:M; [|discriminate]. inversion H. subst.
  unfold good_sdp. cbn [sd_version sd_origin sd_name sd_info sd_uri sd_email sd_phone sd_conn sd_bw sd_times sd_zones sd_key sd_attrs sd_media].
  split; [reflexivity|]. do 8 (split; [assumption|]). split; [intros E0; rewrite E0 in Et; discriminate|]. split; [now apply in_opt|]. do 4 (split; [assumption|]).
  apply (medias_good lim _ _ (in_opt _ _ _ _ G15 G16) M).
Qed.

(** ** Protocols beginning like a known one *)
Lemma p_lines_stuck : forall l k bad, (forall x, In x l -> good_line x) -> p_line bad = None -> (length l < k)%nat -> p_lines k (texts l ++ bad) = (bad, l).
Proof.
  induction l as [|x l IH]; intros k bad H B Hk; destruct k as [|k]; try (cbn in Hk; lia).
  - cbn [texts flat_map app p_lines]. now rewrite B.
  - unfold texts. cbn [flat_map p_lines]. fold (texts l). unfold crlf. rewrite <- !app_assoc. cbn [app]. rewrite line_reads by (apply H; now left).
    change (skip_eol (13 :: 10 :: texts l ++ bad)) with (texts l ++ bad). rewrite IH; [reflexivity| |exact B|cbn in Hk; lia]. intros y Hy. apply H. now right.
Qed.
Lemma strip_prefix_take : forall k n r, ~ In 32 k -> strip_prefix k (n ++ 32 :: r) <> None -> exists q, n = k ++ q.
Proof.
  intros k n r Hk H. destruct (strip_prefix k n) eqn:E; [apply strip_prefix_some in E; now exists s|]. exfalso. apply H. clear H.
  revert k Hk E. induction n as [|c n IH]; intros k Hk E.
  - destruct k as [|x k]; [discriminate|]. cbn [app strip_prefix]. destruct (x =? 32) eqn:X; [|reflexivity]. exfalso. apply Hk. left. lia.
  - destruct k as [|x k]; [discriminate|]. cbn [app strip_prefix] in *. destruct (x =? c); [|reflexivity]. apply IH; [intros Hi; apply Hk; now right|exact E].
Qed.
Lemma then_space_none : forall A (p : parser A) s q a, p s = Some (q, a) -> starts_ok q -> then_space p s = None.
Proof.
  intros A p s q a H S. destruct (then_space p s) as [[r x]|] eqn:E; [|reflexivity]. exfalso. apply then_space_inv in E. destruct E as (q' & E & Hn & _).
  rewrite H in E. inversion E. subst. contradiction.
Qed.
(** a name that begins with a known protocol but is none of them *)
Lemma proto_cut : forall n r, (forall c, In c n -> c <> 32 /\ c <> 9) -> ~ In n known_protocols -> (exists k q, In k known_protocols /\ n = k ++ q) ->
  then_space proto (n ++ 32 :: r) = None.
Proof.
  intros n r Hc Hn (k & q & Hk & E).
  destruct (proto (n ++ 32 :: r)) as [[t p]|] eqn:P.
  2: { unfold then_space, bind. now rewrite P. }
  apply (then_space_none _ _ _ t p P).
  assert (T : forall k', In k' known_protocols -> n ++ 32 :: r = k' ++ t -> starts_ok t).
  { intros k' Hk' Ek. assert (exists q', n = k' ++ q') as [q' ->].
    { apply (strip_prefix_take k' n r); [|rewrite Ek, strip_prefix_app; discriminate]. cbn [In known_protocols] in Hk'. decompose [or] Hk'; subst; try contradiction; vm_compute; intuition lia. }
    rewrite <- app_assoc in Ek. apply app_inv_head in Ek. subst t. destruct q' as [|c q']; [rewrite app_nil_r in Hn; contradiction|].
    cbn. destruct (Hc c) as [? ?]; [apply in_or_app; right; now left|]. unfold space_tab. lia. }
  unfold proto in P. 
  do 7 (apply orelse_inv in P; destruct P as [P|[? P]]; [apply tag_inv in P; destruct P as [P _]; refine (T _ _ P); cbn; tauto|]).
  exfalso. subst n. rewrite <- app_assoc in *. cbn [In known_protocols] in Hk.
  repeat (destruct Hk as [<-|Hk]; [match goal with X : tag ?k _ (?k ++ _) = None |- _ => now rewrite tag_app in X end|]). destruct Hk.
Qed.
Definition media_start (t : media_type) (p : N) (name : str) (rest : str) : str :=
  lit "m=" ++ media_type_text t ++ 32 :: print_N p ++ 32 :: name ++ 32 :: rest.
Lemma media_start_none : forall t p n r, good_type t -> p <= u16_max -> (forall c, In c n -> c <> 32 /\ c <> 9) -> n <> [] -> ~ In n known_protocols ->
  (exists k q, In k known_protocols /\ n = k ++ q) -> p_line (media_start t p n r) = None.
Proof.
  intros t p n r Ht Hp Hc Hz Hn Hk. unfold media_start. rewrite p_m. unfold m_line. rewrite (bind_some _ _ _ _ _ _ _ (tag_app _ _ _ _)).
  erewrite bind_some.
  2: { apply then_space_app; [apply word_app; [now apply type_chars|reflexivity]|]. apply print_first. }
  erewrite bind_some.
  2: { apply then_space_app; [apply (port_app p None); [assumption|exact I]|].
       apply first_ok; [exact Hz| |intros c Hi; now apply Hc]. destruct n as [|c n]; [congruence|]. cbn. now apply Hc; left. }
  unfold bind at 1. now rewrite proto_cut.
Qed.
Theorem unreadable : forall lim l t p n r, (forall x, In x l -> good_line x) -> good_type t -> p <= u16_max -> (forall c, In c n -> c <> 32 /\ c <> 9) -> n <> [] ->
  ~ In n known_protocols -> (exists k q, In k known_protocols /\ n = k ++ q) -> forall s, parse_with lim (texts l ++ media_start t p n r) <> Ok s.
Proof.
  intros lim l t p n r Hl Ht Hp Hc Hz Hn Hk s H. unfold parse_with in H. destruct (negb (within lim _)); [discriminate|].
  rewrite p_lines_stuck in H; [|exact Hl|now apply media_start_none|rewrite app_length; pose proof (texts_length l); lia].
  assert (is_nil (trim (media_start t p n r)) = false) as E.
  { unfold media_start. destruct (trim _) eqn:E; [|reflexivity]. exfalso. apply ViaProofs.trim_nil_blank in E. specialize (E 109 (or_introl eq_refl)). discriminate. }
  rewrite E in H. discriminate.
Qed.
