(** Property C141: reliable provisional responses of the user agent server. *)
From Coq Require Import Arith NArith Bool String List Lia ZifyBool ZifyN ZifyNat.
Import ListNotations.
From Verif Require Import Base BaseFacts NumFacts Headers HeadersProofs Method Text TextFacts Uri Msg Message MessageProofs Dialog DialogSpec DialogProofs P_Dialog Prack PrackSpec PrackProofs P_Prack Via TxManager Dns Uac UacSpec UacProofs UacReads P_Uac Uas UasServe UasSpec UasProofs UasCalls UasTalk P_Uas P_UasCall P_UasTimer.
Open Scope N_scope.
Open Scope list_scope.

Lemma find_sub_here : forall c p a b, ~ In c p -> ~ occurs (c :: p) a -> find_sub (c :: p) (a ++ (c :: p) ++ b) = Some (a, b).
Proof.
  intros c p a b Hc. assert (SP : forall s z, strip_prefix s (s ++ z) = Some z) by (induction s as [|y s IH]; intros z; cbn [strip_prefix app]; [reflexivity|now rewrite N.eqb_refl]).
  induction a as [|x a IH]; intros N.
  - change ([] ++ (c :: p) ++ b) with ((c :: p) ++ b). specialize (SP (c :: p) b). cbn [app] in *. cbn [find_sub]. now rewrite SP.
  - change ((x :: a) ++ (c :: p) ++ b) with (x :: a ++ (c :: p) ++ b). cbn [find_sub]. destruct (strip_prefix (c :: p) (x :: a ++ (c :: p) ++ b)) as [z|] eqn:S.
    + exfalso. assert (E : x :: a ++ (c :: p) ++ b = (c :: p) ++ z).
      { clear - S. revert S. generalize (x :: a ++ (c :: p) ++ b) as t. generalize (c :: p) as q. induction q as [|y q IH]; intros t S; cbn [strip_prefix] in S; [now injection S as ->|].
        destruct t as [|u t]; [discriminate|]. destruct (y =? u) eqn:Y; [|discriminate]. apply N.eqb_eq in Y. subst u. cbn [app]. f_equal. now apply IH. }
      change (x :: a ++ (c :: p) ++ b) with ((x :: a) ++ ((c :: p) ++ b)) in E. destruct (app_eq_app _ _ _ _ E) as (l & [[E1 E2] | [E1 E2]]).
      * apply N. exists [], l. exact E1.
      * destruct l as [|y l]; [|].
        -- apply N. exists [], []. rewrite E1, !app_nil_r. reflexivity.
        -- cbn [app] in E2. injection E2 as <- _. cbn [app] in E1. injection E1 as -> E1. apply Hc. rewrite E1. apply in_or_app. right. now left.
    + rewrite IH; [reflexivity|]. intros (u & v & ->). apply N. exists (x :: u), v. reflexivity.
Qed.
Definition reliable_lines (s : uas) (rseq : N) (sdp : option str) : list (str * str) :=
  [ln "RSeq" (print_N rseq); ln "Require" (lit "100rel"); contact_line s] ++ match sdp with Some _ => [ln "Content-Type" (lit "application/sdp")] | None => [] end.
Definition own_tag (d : dialog) (o : option str) : option str := match o with Some t => Some (strip_tag t ++ lit ";tag=" ++ di_local (d_id d)) | None => None end.
Lemma reliable_inv : forall s rq d code reason sdp tag rnd now s' r, create_reliable s rq d code reason sdp tag rnd now = Ret (Some (s', r)) ->
  100 <= code <= 199
  /\ let rseq := snd (next_rseq rnd (d_id d) (us_rseq s)) in
     r = mkResp code reason (shape rq (own_tag d (tagged_to rq code tag)) (ok_length sdp) (reliable_lines s rseq sdp)) (body_bytes sdp)
     /\ s' = register_reliable (put_rseq s (fst (next_rseq rnd (d_id d) (us_rseq s)))) rq d rseq code now.
Proof.
  intros s rq d code reason sdp tag rnd now s' r H. unfold create_reliable in H. destruct (in_range 100 199 code) eqn:R; cbn [negb] in H; [|discriminate H].
  destruct (reason_ok reason && sdp_ok sdp); cbn [negb] in H; [|discriminate H]. split; [unfold in_range in R; lia|].
  destruct (create_response rq code reason tag) as [r0|] eqn:C; cbn [obind] in H; [|discriminate H]. apply create_inv in C. destruct C as [_ ->].
  destruct (next_rseq rnd (d_id d) (us_rseq s)) as [m rseq]. cbn [fst snd]. cbv zeta in H |- *.
  destruct (push_line _ _) as [r1|] eqn:P1; cbn [obind] in H; [|discriminate H]. apply push_line_inv in P1. cbn [p_code p_reason p_headers p_body] in P1. subst r1.
  destruct (push_line _ _) as [r2|] eqn:P2; cbn [obind] in H; [|discriminate H]. apply push_line_inv in P2. cbn [p_code p_reason p_headers p_body] in P2. subst r2.
  destruct (push_line _ _) as [r3|] eqn:P3; cbn [obind] in H; [|discriminate H]. apply push_line_inv in P3. cbn [p_code p_reason p_headers p_body] in P3. subst r3.
  rewrite !shape_snoc in H. cbn [app p_code p_reason p_headers p_body] in H.
  set (extra := [ln "RSeq" (print_N rseq); ln "Require" (lit "100rel"); contact_line s]) in H.
  assert (Q : forall hs, replace_to_tag (di_local (d_id d)) (shape rq (tagged_to rq code tag) (lit "0") extra) = Ret hs -> hs = shape rq (own_tag d (tagged_to rq code tag)) (lit "0") extra).
  { intros hs X. unfold replace_to_tag in X. rewrite exact_shape in X by (repeat constructor). destruct (tagged_to rq code tag) as [t|]; cbn [own_tag]; [|now injection X as <-].
    unfold hset_or_push in X. destruct (validate_header_name _); [discriminate|]. destruct (validate_header_value _); [discriminate|]. rewrite set_to_shape in X. cbn [unwrap] in X. now injection X as <-. }
  destruct (replace_to_tag _ _) as [hs|] eqn:T; cbn [obind] in H; [|discriminate H]. rewrite (Q hs eq_refl) in H. clear Q T hs.
  destruct (with_sdp sdp _) as [r4|] eqn:W; cbn [obind] in H; [|discriminate H]. injection H as <- <-. apply with_sdp_inv in W. split; [|reflexivity].
  rewrite W. unfold reliable_lines, ok_length, body_bytes. destruct sdp; reflexivity.
Qed.
Lemma reliable_unnamed : forall s n sdp k, In k (map lit seven) -> unnamed k (reliable_lines s n sdp).
Proof. intros s n sdp k H. cbn [map seven] in H. repeat (destruct H as [<- | H]; [destruct sdp; repeat constructor|]). destruct H. Qed.
(** what goes out *)
Theorem C141_response : forall s rq d code reason sdp tag rnd now s' r, create_reliable s rq d code reason sdp tag rnd now = Ret (Some (s', r)) ->
  let rseq := snd (next_rseq rnd (d_id d) (us_rseq s)) in
  p_code r = code /\ p_reason r = reason /\ 100 <= code <= 199 /\ mirrors rq r /\ sized r /\ p_body r = body_bytes sdp
  /\ values "RSeq" (p_headers r) = [print_N rseq] /\ values "Require" (p_headers r) = [lit "100rel"]
  /\ values "Contact" (p_headers r) = [lit "<" ++ u_raw (us_contact s) ++ lit ">"]
  /\ us_rseq s' = fst (next_rseq rnd (d_id d) (us_rseq s)) /\ us_dialogs s' = us_dialogs s
  /\ (forall x, values "To" (q_headers rq) = [lit "<" ++ u_raw x ++ lit ">"] -> party x -> tag_text tag ->
        values "To" (p_headers r) = [lit "<" ++ u_raw x ++ lit ">;tag=" ++ di_local (d_id d)]).
Proof.
  intros s rq d code reason sdp tag rnd now s' r H rseq. apply reliable_inv in H. cbv zeta in H. fold rseq in H. destruct H as (L & R & S).
  assert (U : forall n, In n seven -> unnamed (lit n) (reliable_lines s rseq sdp)) by (intros n Hn; apply reliable_unnamed; now apply in_map).
  assert (V : forall n, ~ In (lower (lit n)) (map (fun k => lower (lit k)) seven) -> values n (p_headers r) = values n (reliable_lines s rseq sdp)).
  { intros n Hn. rewrite R. cbn [p_headers]. now apply shape_extra. }
  split; [now rewrite R|]. split; [now rewrite R|]. split; [exact L|]. split; [rewrite R; now apply shape_mirrors|]. split.
  { rewrite R. apply shape_sized; [exact U|]. unfold ok_length, body_bytes. destruct sdp as [x|]; [|reflexivity]. now rewrite llen_utf8. }
  split; [now rewrite R|]. split; [rewrite V by (cbn; intuition discriminate); destruct sdp; reflexivity|]. split; [rewrite V by (cbn; intuition discriminate); destruct sdp; reflexivity|].
  split; [rewrite V by (cbn; intuition discriminate); destruct sdp; reflexivity|].
  split; [rewrite S; unfold register_reliable; destruct (parse_cseq_number _); reflexivity|]. split; [rewrite S; unfold register_reliable; destruct (parse_cseq_number _); reflexivity|].
  intros x Hx P Ht. rewrite R. cbn [p_headers].
  destruct (shape_values rq (own_tag d (tagged_to rq code tag)) (ok_length sdp) (reliable_lines s rseq sdp)) as (_ & _ & _ & _ & _ & A & _); try (apply U; cbn; tauto). rewrite A. clear A.
  unfold tagged_to. rewrite first_get. unfold first_value. rewrite Hx. cbn [own_tag]. f_equal.
  assert (N : ~ occurs (lit ";tag=") (angle x)) by (apply contains_not; now apply angle_contains).
  assert (E : strip_tag (if code =? 100 then angle x else with_tag tag (angle x)) = angle x).
  { unfold with_tag. rewrite (angle_contains x P). unfold strip_tag. destruct (code =? 100).
    - unfold occurs in N. replace (find_sub (lit ";tag=") (angle x)) with (@None (str * str)); [reflexivity|]. symmetry. apply find_sub_none. intros a b E. apply N. now exists a, b.
    - assert (Z : find_sub (lit ";tag=") (angle x ++ lit ";tag=" ++ tag) = Some (angle x, tag)) by (apply (find_sub_here 59 (lit "tag=")); [vm_compute; intuition discriminate|exact N]).
      rewrite Z. replace (split_once 59 tag) with (@None (str * str)); [apply app_nil_r|]. symmetry. apply split_once_none. apply not_true_is_false. intros I. apply mem_In in I. destruct Ht as (_ & _ & Ht). specialize (Ht 59 I). discriminate. }
  change (lit "<" ++ u_raw x ++ lit ">") with (angle x). rewrite E. unfold angle. rewrite <- !app_assoc. reflexivity.
Qed.
Print Assumptions C141_response.
(** a series of reliable responses; [None] if a call panics *)
Record attempt := mkAttempt { at_rq : req; at_d : dialog; at_code : N; at_reason : str; at_sdp : option str; at_tag : str; at_rnd : N; at_now : N }.
Fixpoint reliables (s : uas) (cs : list attempt) : option (list (dialog_id * resp)) :=
  match cs with
  | [] => Some []
  | c :: rest =>
      match create_reliable s (at_rq c) (at_d c) (at_code c) (at_reason c) (at_sdp c) (at_tag c) (at_rnd c) (at_now c) with
      | Panics => None
      | Ret None => reliables s rest
      | Ret (Some (s', r)) => match reliables s' rest with Some l => Some ((d_id (at_d c), r) :: l) | None => None end
      end
  end.
Definition of_dialog (id : dialog_id) (l : list (dialog_id * resp)) : list resp := map snd (filter (fun x => did_eqb (fst x) id) l).
Lemma reliables_ops : forall cs s l id, reliables s cs = Some l ->
  exists ops, (forall i, ~ In (RRemove i) ops) /\ map (fun r => values "RSeq" (p_headers r)) (of_dialog id l) = map (fun n => [print_N n]) (rs_outs id (us_rseq s) ops).
Proof.
  induction cs as [|c cs IH]; intros s l id H; cbn [reliables] in H.
  - injection H as <-. exists []. split; [intros i []|reflexivity].
  - destruct (create_reliable _ _ _ _ _ _ _ _ _) as [[[s' r]|]|] eqn:C; [|now apply IH|discriminate].
    destruct (reliables s' cs) as [l'|] eqn:R; [|discriminate]. injection H as <-. destruct (IH s' l' id R) as (ops & O1 & O2).
    apply C141_response in C. cbv zeta in C. destruct C as (_ & _ & _ & _ & _ & _ & V & _ & _ & U & _).
    exists (RNext (at_rnd c) (d_id (at_d c)) :: ops). split; [intros i [X | X]; [discriminate|now apply (O1 i)]|].
    unfold of_dialog in *. cbn [filter fst rs_outs rs_step]. rewrite <- U. destruct (did_eqb (d_id (at_d c)) id).
    + cbn [map snd app]. rewrite O2, V. reflexivity.
    + cbn [app]. exact O2.
Qed.
(** the responses of a dialog are numbered one after the other *)
Theorem C141_numbers : forall cs s l id, reliables s cs = Some l -> lookup did_eqb id (us_rseq s) = None ->
  of_dialog id l = [] \/ exists first, 1 <= first <= 2147483647
  /\ forall i r, nth_error (of_dialog id l) i = Some r -> values "RSeq" (p_headers r) = [print_N (N.min u32_max (first + N.of_nat i))].
Proof.
  intros cs s l id H L. destruct (reliables_ops cs s l id H) as (ops & O1 & O2). destruct (rs_outs id (us_rseq s) ops) as [|first rest] eqn:E.
  - left. apply map_eq_nil in O2. exact O2.
  - right. exists first. destruct (C82_consecutive ops id (us_rseq s) L (O1 id) first rest E) as [B C]. split; [exact B|]. intros i r N.
    assert (X : nth_error (map (fun r => values "RSeq" (p_headers r)) (of_dialog id l)) i = Some (values "RSeq" (p_headers r))) by exact (map_nth_error (fun r => values "RSeq" (p_headers r)) i _ N).
    rewrite O2 in X. destruct (nth_error (first :: rest) i) as [n|] eqn:Y.
    + rewrite (map_nth_error (fun n => [print_N n]) i _ Y) in X. injection X as X. rewrite <- X. now rewrite <- (C i n Y).
    + apply nth_error_None in Y. assert (Z : nth_error (map (fun n => [print_N n]) (first :: rest)) i = None) by (apply nth_error_None; now rewrite map_length). congruence.
Qed.
Print Assumptions C141_numbers.

(** the dialog the caller makes of such a response *)
Definition early_end (s : uas) (la ra : sip_uri) (call ctag tag : str) : dialog :=
  mkD (mkId call ctag tag) Early (us_contact s) [] 1 0 None la ra (u_sips la || u_sips ra) None None true.
Lemma early_returned : forall s q p from target contact call ctag d code reason sdp tag rnd now s' r la ra,
  create_reliable s q d code reason sdp tag rnd now = Ret (Some (s', r)) -> calls q p from target contact call ctag -> tag_text tag -> tag_text (di_local (d_id d)) ->
  callee s -> party la -> party ra -> new_uac q r la ra = Ret (Some (early_end s la ra call ctag (di_local (d_id d)))).
Proof.
  intros s q p from target contact call ctag d code reason sdp tag rnd now s' r la ra H K Ht Hl [S1 S2] La Ra. assert (K' := K). destruct K' as (M & G & P & F & T & C & Ct & (v & V) & H1 & H2 & H3 & H4 & H5 & H6).
  assert (H' := H). apply C141_response in H. cbv zeta in H. destruct H as (R1 & R2 & R3 & (V1 & V2 & V3 & V4 & V5) & _ & _ & _ & _ & VC & _ & _ & VT).
  destruct (first_once _ _ _ H1) as [Q1 _]. destruct (first_once _ _ _ H2) as [_ Q2]. destruct (first_once _ _ _ H3) as [Q3 _]. destruct (first_once _ _ _ H4) as [Q4 _].
  specialize (VT target Q2 T Ht). rewrite Q1 in V3. rewrite Q3 in V4.
  assert (I : id_of_headers (p_headers r) = Ret (Some (call, ctag, di_local (d_id d)))).
  { unfold id_of_headers. rewrite (value_of _ _ _ _ V4), (value_of _ _ _ _ V3), (value_of _ _ _ _ VT). rewrite read_tag by assumption.
    change (lit "<" ++ u_raw target ++ lit ">;tag=" ++ di_local (d_id d)) with ([] ++ lit "<" ++ u_raw target ++ lit ">;tag=" ++ di_local (d_id d)). rewrite read_tag; [reflexivity|apply name_part_nil|assumption..]. }
  unfold new_uac, id_from_response_uac. rewrite I. f_equal. unfold dlg_make. rewrite R1. replace (state_of_code code) with (Some Early) by (unfold state_of_code, in_range; replace ((100 <=? code) && (code <=? 199)) with true by lia; reflexivity). cbv iota.
  unfold extract_contact at 1 2. rewrite (value_of _ _ _ _ VC), (read_contact _ (us_contact s) S2 eq_refl). rewrite !party_valid by assumption. cbn [no_err is_none andb negb].
  unfold build_route_set. change (hget_all (lit "Record-Route") (p_headers r)) with (values "Record-Route" (p_headers r)). rewrite V2.
  unfold never in H6. unfold values. rewrite H6. cbn [flat_map add_routes rev]. change (is_some (validate_route_set [])) with false. cbv iota.
  unfold parse_cseq_number. rewrite (once_of _ _ _ H4). change (split_ws (lit "1 INVITE")) with [lit "1"; lit "INVITE"]. cbv iota. change (parse_uint u32_max (lit "1")) with (Some 1). cbv iota.
  change (is_some (validate_cseq 1)) with false. cbv iota.
  assert (Z : extract_session_timer r = None).
  { apply reliable_inv in H'. cbv zeta in H'. destruct H' as (_ & -> & _). unfold extract_session_timer. cbn [p_headers]. unfold header_of. rewrite !first_get. unfold first_value.
    change (canonical_name (lit "Session-Expires")) with (lit "Session-Expires"). rewrite first_get. unfold first_value. rewrite shape_extra by (cbn; intuition discriminate).
    replace (values "Session-Expires" _) with (@nil str) by (destruct sdp; reflexivity). reflexivity. }
  rewrite Z. reflexivity.
Qed.
Lemma trunc_in : forall l x, In x (trunc l) -> In x l.
Proof.
  intros l x H. unfold trunc in H. destruct (_ <=? _)%nat; [|exact H]. rewrite <- (firstn_skipn (length l + 1 - MAX_PENDING) l). apply in_or_app. now right.
Qed.
Lemma cleanup_in : forall v d now x, In x (pv_list (pv_cleanup v d now) d) -> In x (pv_list v d).
Proof. intros v d now x H. destruct (list_cleanup v d now d) as [E | [_ E]]; rewrite E in H; [exact H|]. now apply filter_In in H. Qed.
Lemma next_rseq_small : forall rnd id m, snd (next_rseq rnd id m) <= u32_max.
Proof.
  intros rnd id m. unfold next_rseq. cbn [snd]. destruct (lookup did_eqb id m) as [x|]; [apply N.le_min_l|]. unfold initial_rseq, u32_max. pose proof (N.mod_lt rnd 2147483648 ltac:(lia)). lia.
Qed.
Lemma prack_rack : forall u f q r e u' pr, (perform u f (CPrackFrom r e) = (u', Ret (Some pr)) \/ perform u f (CPrack q r e) = (u', Ret (Some pr))) ->
  forall rseq, rseq <= u32_max -> header_of (p_headers r) (lit "RSeq") = Some (print_N rseq) -> header_of (p_headers r) (lit "CSeq") = Some (lit "1 INVITE") -> header_of (q_headers q) (lit "CSeq") = Some (lit "1 INVITE") ->
  hget (lit "RAck") (q_headers pr) = Some (print_N rseq ++ lit " 1 INVITE").
Proof.
  intros u f q r e u' pr H rseq Hr R C Cq.
  assert (X : mk_prack_rack u f e (print_N rseq ++ lit " 1 INVITE") = Ret pr).
  { destruct H as [H | H]; cbn [perform] in H; injection H as _ H; unfold mk_prack_from, mk_prack in H.
    - rewrite R, parse_uint_print in H by exact Hr. rewrite C in H. change (split_ws (lit "1 INVITE")) with [lit "1"; lit "INVITE"] in H. cbv iota in H. apply lift_some in H. exact H.
    - rewrite Cq in H. change (split_ws (lit "1 INVITE")) with [lit "1"; lit "INVITE"] in H. cbv iota in H. change (parse_uint u32_max (lit "1")) with (Some 1) in H. cbv iota in H.
      rewrite R, parse_uint_print in H by exact Hr. apply lift_some in H. exact H. }
  apply assemble_eq in X. subst pr. apply (once_get _ "RAck"). read_headers. reflexivity.
Qed.
(** the caller acknowledges such a response once: its PRACK is accepted, and a
    second one is not *)
Theorem C141_prack_partial : forall u f target sdp o q s d code reason b tag rnd now s1 r,
  mk_invite u f target sdp o = Ret q -> caller u -> party target -> (forall x, o = Some x -> party x) -> tag_text (fr_tag f) ->
  callee s -> tag_text tag -> tag_text (di_local (d_id d)) -> d_id d = mkId (fr_call f ++ lit "@localhost") (di_local (d_id d)) (fr_tag f) ->
  create_reliable s q d code reason b tag rnd now = Ret (Some (s1, r)) ->
  (forall p, In p (pv_list (us_prack s) (id_key (d_id d))) -> pe_rseq p <> snd (next_rseq rnd (d_id d) (us_rseq s))) ->
  exists e, new_uac q r (sender u (CInvite target sdp o)) target = Ret (Some e) /\ d_state e = Early
  /\ d_id d = mkId (di_call (d_id e)) (di_remote (d_id e)) (di_local (d_id e)) /\ d_target e = us_contact s
  /\ forall u2 f2 u3 pr, caller u2 -> (perform u2 f2 (CPrackFrom r e) = (u3, Ret (Some pr)) \/ perform u2 f2 (CPrack q r e) = (u3, Ret (Some pr))) ->
     forall tag2 now2, tag_text tag2 -> now2 <= now + 300 * NS ->
     exists s2 r2, handle_prack s1 pr d tag2 now2 = Ret (Some (s2, r2)) /\ p_code r2 = 200
     /\ forall tag3 now3 s3 r3, handle_prack s2 pr d tag3 now3 = Ret (Some (s3, r3)) -> p_code r3 = 400 \/ p_code r3 = 481.
Proof.
  intros u f target sdp o q s d code reason b tag rnd now s1 r H C T O Tf S Ht Hl Hd R Fr. destruct (invite_calls _ _ _ _ _ _ H C T O Tf) as (p & K).
  set (from := sender u (CInvite target sdp o)) in *. set (call := fr_call f ++ lit "@localhost") in *. set (ltag := di_local (d_id d)) in *.
  assert (Pf : party from) by (destruct K as (_ & _ & _ & K & _); exact K).
  exists (early_end s from target call (fr_tag f) ltag). set (e := early_end s from target call (fr_tag f) ltag).
  split; [exact (early_returned s q p from target (ua_contact u) call (fr_tag f) d code reason b tag rnd now s1 r from target R K Ht Hl S Pf T)|]. split; [reflexivity|]. split; [exact Hd|]. split; [reflexivity|].
  intros u2 f2 u3 pr C2 P tag2 now2 Ht2 Hn.
  assert (K' := K). destruct K' as (M & _ & _ & _ & _ & _ & _ & _ & _ & _ & _ & Cq & _).
  assert (R' := R). apply C141_response in R'. cbv zeta in R'. destruct R' as (_ & _ & _ & (_ & _ & _ & _ & V5) & _ & _ & VR & _).
  set (rseq := snd (next_rseq rnd (d_id d) (us_rseq s))) in *. assert (Lr : rseq <= u32_max) by apply next_rseq_small.
  assert (RA : hget (lit "RAck") (q_headers pr) = Some (print_N rseq ++ lit " 1 INVITE")).
  { apply (prack_rack u2 f2 q r e u3 pr P rseq Lr); [exact (value_of _ _ _ _ VR)| |exact (once_of _ _ _ Cq)]. destruct (first_once _ _ _ Cq) as [Q _]. rewrite Q in V5. exact (value_of _ _ _ _ V5). }
  assert (PI : exists c u', perform u2 f2 c = (u', Ret (Some pr)) /\ dialog_inside c = Some e /\ method_wanted c = "PRACK"%string) by (destruct P as [P | P]; do 2 eexists; (split; [exact P|split; reflexivity])).
  destruct PI as (c & u' & PP & PI & PM). destruct (inside_server u2 f2 c u' pr e d PP PI C2 Pf T Tf Hl Hd) as [B _].
  assert (M2 : method_str (q_method pr) = lit "PRACK") by (destruct (call_good _ _ _ _ _ PP) as (_ & X & _); now rewrite X, PM).
  assert (I : inside "PRACK" pr d = Ret true) by (unfold inside; rewrite M2, str_eqb_refl; exact B).
  set (k := id_key (d_id d)) in *. set (pd := mkPend rseq 1 MInvite code false now).
  assert (N : parse_cseq_number (q_headers q) = Some 1) by (unfold parse_cseq_number; rewrite (once_of _ _ _ Cq); reflexivity).
  apply reliable_inv in R. cbv zeta in R. fold rseq in R. destruct R as (_ & _ & R). unfold register_reliable in R. rewrite N, M in R. cbv zeta in R.
  change (us_prack (put_rseq s (fst (next_rseq rnd (d_id d) (us_rseq s))))) with (us_prack s) in R. fold k pd in R.
  assert (RP : rack_parse (print_N rseq ++ lit " 1 INVITE") = Some (mkRack rseq 1 MInvite)).
  { exact (C30_validator_roundtrip_partial rseq 1 MInvite Lr ltac:(unfold u32_max; lia) ltac:(now left)). }
  set (v1 := pv_push (pv_cleanup (us_prack s) k now) k pd) in *.
  assert (U1 : us_prack s1 = v1) by now rewrite R.
  assert (L1 : exists a, pv_list v1 k = a ++ [pd] /\ Forall (fun x => pe_rseq x <> rseq) a).
  { exists (trunc (pv_list (pv_cleanup (us_prack s) k now) k)). unfold v1. rewrite list_push, str_eqb_refl. split; [reflexivity|].
    apply Forall_forall. intros x Hx. apply trunc_in, cleanup_in in Hx. now apply Fr. }
  destruct L1 as (a & L1 & Ha).
  assert (L2 : exists a', pv_list (pv_cleanup v1 k now2) k = a' ++ [pd] /\ Forall (fun x => pe_rseq x <> rseq) a').
  { destruct (list_cleanup v1 k now2 k) as [E | [_ E]]; rewrite E, L1; [now exists a|]. exists (filter (keep now2) a). rewrite filter_app. cbn [filter].
    replace (keep now2 pd) with true by (unfold keep, pd, PRACK_TIMEOUT; cbn [pe_pracked pe_created negb andb]; symmetry; apply N.leb_le; lia). split; [reflexivity|].
    apply Forall_forall. intros x Hx. apply filter_In in Hx. rewrite Forall_forall in Ha. now apply Ha. }
  destruct L2 as (a' & L2 & Ha'). set (v2 := pv_cleanup v1 k now2) in *.
  assert (LL : lookup str_eqb k (pv_pending v2) = Some (a' ++ [pd])).
  { unfold pv_list in L2. destruct (lookup str_eqb k (pv_pending v2)) as [l|]; [now rewrite L2|]. now apply app_cons_not_nil in L2. }
  destruct (find_first rseq a' pd [] Ha' eq_refl) as [F1 F2].
  set (v3 := mkPv (insert str_eqb k (mark_first rseq (a' ++ [pd])) (pv_pending v2)) (pv_last v2)).
  assert (CK : pv_check v2 k (q_headers pr) = (v3, Some (mkRack rseq 1 MInvite))).
  { unfold pv_check. rewrite RA, RP, LL. cbn [ra_rseq ra_cseq ra_method]. rewrite F1. cbn [pd pe_cseq pe_method pe_pracked]. reflexivity. }
  assert (Ro : roomy pr tag2) by exact (inside_roomy u2 f2 c u' pr e tag2 PP PI Ht2).
  exists (put_prack s1 v3), (ok_response s1 pr None tag2). split; [|split; [reflexivity|]].
  { unfold handle_prack. rewrite I. cbn [obind negb]. cbv zeta. fold k. rewrite U1. fold v2. rewrite CK. rewrite create_ok_ret; [reflexivity|exact Ro| |discriminate].
    rewrite R. apply party_plain, S. }
  intros tag3 now3 s3 r3 X. unfold handle_prack in X. rewrite I in X. cbn [obind negb] in X. cbv zeta in X. fold k in X. change (us_prack (put_prack s1 v3)) with v3 in X.
  assert (D : forall x, In x (pv_list v3 k) -> pe_rseq x = rseq -> pe_pracked x = true).
  { intros x Hx Ex. unfold v3 in Hx. rewrite list_insert, str_eqb_refl in Hx. rewrite F2 in Hx. apply in_app_or in Hx. destruct Hx as [Hx | [<- | []]]; [|reflexivity].
    rewrite Forall_forall in Ha'. now elim (Ha' x Hx). }
  set (v4 := pv_cleanup v3 k now3) in *.
  assert (D4 : forall x, In x (pv_list v4 k) -> pe_rseq x = rseq -> pe_pracked x = true) by (intros x Hx; apply cleanup_in in Hx; now apply D).
  assert (CK4 : snd (pv_check v4 k (q_headers pr)) = None).
  { unfold pv_check. rewrite RA, RP. destruct (lookup str_eqb k (pv_pending v4)) as [l|] eqn:A1; [|reflexivity]. cbn [ra_rseq ra_cseq ra_method].
    destruct (find (fun p => pe_rseq p =? rseq) l) as [pp|] eqn:A2; [|reflexivity]. apply find_some in A2. destruct A2 as [A2 A2']. apply N.eqb_eq in A2'.
    assert (Y : pe_pracked pp = true) by (apply D4; [unfold pv_list; now rewrite A1|exact A2']). rewrite Y. destruct (negb _); [reflexivity|]. destruct (negb _); reflexivity. }
  destruct (pv_check v4 k (q_headers pr)) as [v5 [rr|]]; [discriminate CK4|].
  destruct (prack_is_400 _).
  - destruct (create_response pr 400 _ tag3) as [r4|] eqn:Z; cbn [obind] in X; [|discriminate X]. injection X as _ <-. apply create_inv in Z. destruct Z as [_ ->]. now left.
  - destruct (create_response pr 481 _ tag3) as [r4|] eqn:Z; cbn [obind] in X; [|discriminate X]. injection X as _ <-. apply create_inv in Z. destruct Z as [_ ->]. now right.
Qed.
Print Assumptions C141_prack_partial.
Definition early_call : dialog := mkD (mkId (lit "c1@localhost") (lit "srv1") (lit "t1")) Early alice_here [] 0 1 None robert alice false None None false.
Example C141_example : exists s1 r e pr s2 r2, create_reliable server1 invite_1 early_call 183 (lit "Session Progress") (Some (lit "v=1")) (lit "zz") 41 0 = Ret (Some (s1, r))
  /\ values "RSeq" (p_headers r) = [lit "41"] /\ new_uac invite_1 r alice robert = Ret (Some e) /\ perform client1 fresh2 (CPrackFrom r e) = (client1, Ret (Some pr))
  /\ handle_prack s1 pr early_call (lit "yy") (5 * NS) = Ret (Some (s2, r2)) /\ p_code r2 = 200
  /\ exists s3 r3, handle_prack s2 pr early_call (lit "yy") (6 * NS) = Ret (Some (s3, r3)) /\ p_code r3 = 400.
Proof.
  do 6 eexists. split; [vm_compute; reflexivity|]. split; [vm_compute; reflexivity|]. split; [vm_compute; reflexivity|]. split; [vm_compute; reflexivity|]. split; [vm_compute; reflexivity|].
  split; [reflexivity|]. do 2 eexists. split; [vm_compute; reflexivity|reflexivity].
Qed.
(** a 100 can be made reliable, which RFC 3262 forbids *)
Theorem C141_trying_refuted : exists s1 r, create_reliable server1 invite_1 early_call 100 (lit "Trying") None (lit "zz") 41 0 = Ret (Some (s1, r))
  /\ values "Require" (p_headers r) = [lit "100rel"].
Proof. do 2 eexists. split; vm_compute; reflexivity. Qed.
Print Assumptions C141_trying_refuted.
Definition with_rack (v : string) : req :=
  mkReq MPrack (SipU robert_here) [(lit "Via", lit "SIP/2.0/UDP a;branch=z9hG4bK1"); (lit "From", lit "<sip:alice@a.example>;tag=t1"); (lit "To", lit "<sip:robert@b.example>;tag=srv1");
    (lit "Call-ID", lit "c1@localhost"); (lit "CSeq", lit "2 PRACK"); (lit "RAck", lit v)] [].
(** a RAck that cannot be read is a 400 if it has too few words and a 481 if a
    word is not a number or not a method *)
Theorem C141_status_refuted : (exists s r, handle_prack server1 (with_rack "1 INVITE") early_call (lit "yy") 0 = Ret (Some (s, r)) /\ p_code r = 400)
  /\ forall v, In v ["x 1 INVITE"; "1 x INVITE"; "1 1 NOPE"]%string -> exists s r, handle_prack server1 (with_rack v) early_call (lit "yy") 0 = Ret (Some (s, r)) /\ p_code r = 481.
Proof.
  split; [do 2 eexists; split; [vm_compute; reflexivity|reflexivity]|]. intros v [<- | [<- | [<- | []]]]; do 2 eexists; (split; [vm_compute; reflexivity|reflexivity]).
Qed.
Print Assumptions C141_status_refuted.
(** the table of pending responses is keyed by a text that tells dialogs apart
    only if the tags have no colon *)
Theorem C141_key_partial : forall i j, ~ In 58 (di_local i) -> ~ In 58 (di_remote i) -> ~ In 58 (di_local j) -> ~ In 58 (di_remote j) -> id_key i = id_key j -> i = j.
Proof.
  assert (G : forall x y x' y', ~ In 58 y -> ~ In 58 y' -> x ++ 58 :: y = x' ++ 58 :: y' -> x = x' /\ y = y').
  { intros x y x' y' H H' E. destruct (app_eq_app _ _ _ _ E) as (l & [[E1 E2] | [E1 E2]]).
    - destruct l as [|c l]; [rewrite app_nil_r in E1; cbn in E2; injection E2 as <-; now subst|]. cbn in E2. injection E2 as <- E2. elim H'. rewrite E2. apply in_or_app. right. now left.
    - destruct l as [|c l]; [rewrite app_nil_r in E1; cbn in E2; injection E2 as <-; now subst|]. cbn in E2. injection E2 as <- E2. elim H. rewrite E2. apply in_or_app. right. now left. }
  intros [c l r] [c' l' r']. cbn [di_call di_local di_remote]. intros H1 H2 H3 H4 E. unfold id_key in E. cbn [di_call di_local di_remote] in E.
  change (lit ":") with [58] in E. cbn [app] in E.
  assert (E' : (c ++ 58 :: l) ++ 58 :: r = (c' ++ 58 :: l') ++ 58 :: r') by (rewrite <- !app_assoc; exact E).
  apply G in E'; [|assumption..]. destruct E' as [E1 ->]. apply G in E1; [|assumption..]. destruct E1 as [-> ->]. reflexivity.
Qed.
Print Assumptions C141_key_partial.
Theorem C141_key_refuted : exists i j, i <> j /\ id_key i = id_key j.
Proof. exists (mkId (lit "a") (lit "b") (lit "c:d")), (mkId (lit "a:b") (lit "c") (lit "d")). split; [discriminate|vm_compute; reflexivity]. Qed.
Print Assumptions C141_key_refuted.
