(** Lemmas on calls between the client of Uac.v and the server of Uas.v. *)
From Coq Require Import Arith NArith Bool String List Lia ZifyBool ZifyN ZifyNat.
Import ListNotations.
From Verif Require Import Base BaseFacts NumFacts Headers HeadersProofs Method Text TextFacts Uri UriProofs Msg Message Dialog DialogSpec DialogProofs ProxyCoreProofs Prack SessionTimer Uac UacSpec UacProofs UacReads UacSend UacSendProofs Uas UasSpec UasProofs UasCalls.
Open Scope N_scope.
Open Scope list_scope.

(** ** The tag in an address *)
Lemma split_parts : forall c v h t, split_on c v = h :: t ->
  (exists b, v = h ++ b) /\ forall s, In s t -> exists a b, v = a ++ c :: s ++ b.
Proof.
  induction v as [|x v IH]; intros h t H; cbn [split_on] in H.
  - injection H as <- <-. split; [now exists []|intros s []].
  - destruct (x =? c) eqn:E.
    + injection H as <- <-. apply N.eqb_eq in E. subst x. split; [now exists (c :: v)|]. intros s Hs. pose proof (split_on_nonempty c v).
      destruct (split_on c v) as [|h' t'] eqn:S; [congruence|]. destruct (IH h' t' eq_refl) as [(b & B) T]. destruct Hs as [<- | Hs].
      * exists [], b. now rewrite B at 1.
      * destruct (T s Hs) as (a & b' & ->). now exists (c :: a), b'.
    + pose proof (split_on_nonempty c v). destruct (split_on c v) as [|h' t'] eqn:S; [congruence|]. injection H as <- <-.
      destruct (IH h' t' eq_refl) as [(b & B) T]. split; [exists b; now rewrite B at 1|]. intros s Hs. destruct (T s Hs) as (a & b' & ->). now exists (x :: a), b'.
Qed.
Lemma split_on_front : forall c p v h t, ~ In c p -> split_on c v = h :: t -> split_on c (p ++ v) = (p ++ h) :: t.
Proof.
  intros c p v h t Hp H. induction p as [|x p IH]; [exact H|]. cbn [app split_on]. rewrite IH by (intros X; apply Hp; now right).
  replace (x =? c) with false; [reflexivity|]. symmetry. apply N.eqb_neq. intros ->. apply Hp. now left.
Qed.
Lemma occurs_snoc : forall p x c z, z <> c -> occurs (p ++ [z]) (x ++ [c]) -> occurs (p ++ [z]) x.
Proof.
  intros p x c z Hz (a & b & E). destruct b as [|b0 b _] using rev_ind.
  - rewrite app_nil_r, app_assoc in E. apply app_inj_tail in E. destruct E as [_ E]. congruence.
  - rewrite !app_assoc in E. apply app_inj_tail in E. destruct E as [E _]. exists a, b. now rewrite E, <- !app_assoc.
Qed.
Lemma occurs_cons : forall p x c z, z <> c -> occurs (z :: p) (c :: x) -> occurs (z :: p) x.
Proof. intros p x c z Hz (a & b & E). destruct a as [|a0 a]; cbn [app] in E; [congruence|]. injection E as _ E. exists a, b. exact E. Qed.
Lemma occurs_lower : forall p x, lower p = p -> occurs p x -> occurs p (lower x).
Proof. intros p x H (a & b & ->). exists (lower a), (lower b). rewrite !lower_app. now rewrite H. Qed.
Lemma tag_low : lower (lit ";tag=") = lit ";tag=".
Proof. reflexivity. Qed.
Lemma angle_no_tag : forall x, party x -> ~ occurs (lit ";tag=") (lower (lit "<" ++ u_raw x ++ lit ">")).
Proof.
  intros x (_ & _ & _ & H & _) O. apply H. rewrite !lower_app in O. change (lower (lit "<")) with [60] in O. change (lower (lit ">")) with [62] in O.
  change (lit ";tag=") with (59 :: lit "tag=") in O. cbn [app] in O. apply occurs_cons in O; [|discriminate].
  change (59 :: lit "tag=") with (lit ";tag" ++ [61]) in O. apply occurs_snoc in O; [|discriminate]. exact O.
Qed.
Lemma angle_contains : forall x, party x -> contains (lit ";tag=") (angle x) = false.
Proof. intros x H. apply contains_not. intros O. apply (angle_no_tag x H). apply occurs_lower; [reflexivity|exact O]. Qed.
Lemma nows_trim : forall s, (forall c, In c s -> is_ws c = false) -> trim s = s.
Proof. intros s H. apply trim_word. apply forallb_forall. intros c Hc. now rewrite (H c Hc). Qed.
Lemma party_chars : forall x c, party x -> In c (u_raw x) -> is_ascii c = true /\ is_ws c = false /\ c <> 0 /\ c <> 34 /\ c <> 60 /\ c <> 62.
Proof. intros x c (_ & _ & H & _) Hc. now apply H. Qed.
(** what may stand before the address *)
Definition name_part (p : str) : Prop := (p = [] \/ exists r, p = 34 :: r) /\ forall c, In c p -> is_ascii c = true /\ c <> 59 /\ c <> 60.
Lemma addr_segments : forall p x, name_part p -> party x ->
  forall s, In s (split_on 59 (p ++ lit "<" ++ u_raw x ++ lit ">")) -> forallb is_ascii s = true /\ starts_with (lit "tag=") (lower (trim s)) = false.
Proof.
  intros p x [P0 P1] H s Hs.
  assert (A : forallb is_ascii (p ++ lit "<" ++ u_raw x ++ lit ">") = true).
  { rewrite !forallb_app. repeat (apply andb_true_intro; split); try reflexivity; apply forallb_forall; intros c Hc; [now apply P1|now apply (party_chars x)]. }
  split. { apply (split_on_forallb is_ascii 59) in A. rewrite Forall_forall in A. now apply A. }
  destruct (split_on 59 (lit "<" ++ u_raw x ++ lit ">")) as [|h t] eqn:E; [now apply split_on_nonempty in E|].
  rewrite (split_on_front _ _ _ h t) in Hs; [|intros X; now destruct (P1 _ X) as (_ & Q & _)|exact E].
  apply split_parts in E. destruct E as [(b & B) T]. destruct Hs as [<- | Hs].
  - assert (Hd : exists r, h = 60 :: r \/ h = []).
    { destruct h as [|c h]; [exists []; now right|]. cbn [app lit] in B. injection B as <- _. exists h. now left. }
    assert (F : forall c r, (c =? 34) || (c =? 60) = true -> starts_with (lit "tag=") (lower (trim (c :: r))) = false).
    { intros c r Hc. assert (X : exists r', trim (c :: r) = c :: r').
      { unfold trim, trim_by. cbn [drop_while]. assert (W : is_ws c = false) by (apply orb_prop in Hc; destruct Hc as [Hc | Hc]; apply N.eqb_eq in Hc; subst c; reflexivity).
        unfold trim_start_by. cbn [drop_while]. rewrite W. destruct (trim_end_by_prefix is_ws (c :: r)) as (b0 & B0 & F0). destruct (trim_end_by is_ws (c :: r)) as [|c' r'] eqn:Z.
        - cbn [app] in B0. rewrite <- B0 in F0. cbn [forallb] in F0. rewrite W in F0. discriminate.
        - cbn [app] in B0. injection B0 as <- _. now exists r'. }
      destruct X as (r' & ->). apply orb_prop in Hc. destruct Hc as [Hc | Hc]; apply N.eqb_eq in Hc; subst c; reflexivity. }
    destruct P0 as [-> | (r & ->)].
    + cbn [app]. destruct Hd as (r & [-> | ->]); [now apply F|reflexivity].
    + cbn [app]. now apply F.
  - destruct (T s Hs) as (a & b' & E). destruct (starts_with (lit "tag=") (lower (trim s))) eqn:S; [|reflexivity]. exfalso.
    assert (W : forall c, In c s -> is_ws c = false).
    { intros c Hc. assert (I : In c (lit "<" ++ u_raw x ++ lit ">")) by (rewrite E; apply in_or_app; right; right; apply in_or_app; now left).
      apply in_app_or in I. destruct I as [[<- | []] | I]; [reflexivity|]. apply in_app_or in I. destruct I as [I | [<- | []]]; [now apply (party_chars x c H)|reflexivity]. }
    rewrite (nows_trim s W) in S. apply starts_with_spec in S. destruct S as (z & S). apply (angle_no_tag x H). rewrite E. rewrite lower_app. cbn [lower map app].
    exists (lower a), (z ++ lower b'). change (map lower_c (s ++ b')) with (lower (s ++ b')). rewrite lower_app, S. rewrite <- !app_assoc. reflexivity.
Qed.
Lemma tag_chars : forall t, tag_text t -> ~ In 59 t /\ trim t = t.
Proof.
  intros t (_ & _ & H). split; [intros X; now apply H in X|]. apply nows_trim. intros c Hc. apply H in Hc.
  now apply alnum_facts in Hc.
Qed.
Lemma read_tag : forall p x t, name_part p -> party x -> tag_text t -> extract_tag (p ++ lit "<" ++ u_raw x ++ lit ">;tag=" ++ t) = Ret (Some t).
Proof.
  intros p x t P X T. destruct (tag_chars t T) as [A B].
  replace (p ++ lit "<" ++ u_raw x ++ lit ">;tag=" ++ t) with ((p ++ lit "<" ++ u_raw x ++ lit ">") ++ lit ";tag=" ++ t) by (rewrite <- !app_assoc; reflexivity).
  apply extract_tag_value; [|exact A|exact B]. now apply addr_segments.
Qed.
Lemma party_trim : forall x, party x -> trim (u_raw x) = u_raw x.
Proof. intros x H. apply nows_trim. intros c Hc. now apply (party_chars x). Qed.
Lemma party_mem : forall x c, party x -> (c =? 60) || (c =? 62) = true -> mem c (u_raw x) = false.
Proof. intros x c H Hc. apply mem_false. intros X. apply (party_chars x) in X; [|exact H]. lia. Qed.

(** ** Reading requests *)
Lemma once_get : forall q n v, once q n v -> hget (lit n) (q_headers q) = Some v.
Proof. intros q n v H. rewrite first_get. unfold first_value, values. unfold once in H. now rewrite H. Qed.
Lemma once_of : forall q n v, once q n v -> header_of (q_headers q) (lit n) = Some v.
Proof. intros q n v H. unfold header_of. now rewrite (once_get q n v H). Qed.
Lemma value_of : forall hs n v l, values n hs = v :: l -> header_of hs (lit n) = Some v.
Proof. intros hs n v l H. unfold header_of. rewrite first_get. unfold first_value. now rewrite H. Qed.
Lemma first_once : forall q n v, once q n v -> first_value n (q_headers q) = [v] /\ values n (q_headers q) = [v].
Proof. intros q n v H. unfold first_value, values. unfold once in H. now rewrite H. Qed.
Lemma push_all_good : forall l acc hs, push_all acc l = Ret hs -> good_headers acc -> good_headers hs.
Proof.
  induction l as [|[n v] l IH]; intros acc hs H G; cbn [push_all] in H; [now injection H as <-|]. destruct (hpush acc n v) as [a|] eqn:E; [|discriminate].
  eapply IH; [exact H|]. eapply hpush_good; eassumption.
Qed.
Lemma assemble_good : forall m u l b q, assemble m u l b = Ret q -> good_headers (q_headers q).
Proof.
  intros m u l b q H. unfold assemble in H. destruct (push_all [] l) as [hs|] eqn:E; [|discriminate]. apply finish_eq in H. subst q. cbn [q_headers].
  eapply push_all_good; [exact E|]. split; [constructor|]. unfold llen; cbn; lia.
Qed.
Lemma read_from : forall q p x t, once q "From" (p ++ lit "<" ++ u_raw x ++ lit ">;tag=" ++ t) -> name_part p -> party x -> from_uri q = Some x.
Proof.
  intros q p x t H [_ P] X. unfold from_uri. rewrite (once_of _ _ _ H). change (lit "<" ++ u_raw x ++ lit ">;tag=" ++ t) with (60 :: u_raw x ++ (62 :: (lit ";tag=" ++ t))).
  rewrite split_once_app by (apply mem_false; intros Q; apply P in Q; lia). rewrite split_once_app by (apply party_mem; [exact X|reflexivity]).
  rewrite party_trim by exact X. apply X.
Qed.
Lemma read_contact : forall v x, party x -> v = lit "<" ++ u_raw x ++ lit ">" -> parse_uri_from_header v = Some x.
Proof.
  intros v x H ->. change (lit "<" ++ u_raw x ++ lit ">") with (route_text x). apply parse_route_text. split; [apply H|]. split; [now apply party_trim|].
  repeat split; intros X; apply (party_chars x) in X; try exact H; lia.
Qed.
Lemma party_valid : forall x, party x -> dlg_validate_uri x = None.
Proof.
  intros x (_ & _ & _ & _ & H). unfold dlg_validate_uri, DLG_MAX_URI_LENGTH. destruct (u_user x), (u_port x); cbn [blen] in H;
  match goal with |- (if ?b then _ else _) = _ => replace b with false by lia end; reflexivity.
Qed.
Lemma party_plain : forall x, party x -> plain_uri_text x.
Proof.
  intros x H. split; [apply H|]. intros c Hc. destruct (party_chars x c H Hc) as (_ & W & Z & _). repeat split; try exact Z; intros ->; discriminate W.
Qed.

(** ** Accepting a call *)
(** an INVITE as a caller writes it *)
Definition calls (q : req) (p : str) (from target contact : sip_uri) (call ctag : str) : Prop :=
  q_method q = MInvite /\ good_headers (q_headers q) /\ name_part p
  /\ party from /\ party target /\ party contact /\ tag_text ctag
  /\ (exists v, once q "Via" v) /\ once q "From" (p ++ lit "<" ++ u_raw from ++ lit ">;tag=" ++ ctag)
  /\ once q "To" (lit "<" ++ u_raw target ++ lit ">") /\ once q "Call-ID" call /\ once q "CSeq" (lit "1 INVITE")
  /\ once q "Contact" (lit "<" ++ u_raw contact ++ lit ">") /\ never q "Record-Route".
Lemma calls_roomy : forall q p from target contact call ctag tag, calls q p from target contact call ctag -> tag_text tag -> roomy q tag.
Proof.
  intros q p from target contact call ctag tag (M & G & P & F & T & C & Ct & (v & V) & H1 & H2 & H3 & H4 & H5 & H6) Ht.
  split; [exact G|]. split; [|split; [|exact Ht]].
  - unfold taken_over. destruct (first_once _ _ _ H1) as [-> _]. destruct (first_once _ _ _ H2) as [-> _]. destruct (first_once _ _ _ H3) as [-> _]. destruct (first_once _ _ _ H4) as [-> _].
    destruct (first_once _ _ _ V) as [_ ->]. unfold values. unfold never in H6. rewrite H6. unfold llen; cbn; lia.
  - intros (t & E & _ & L). destruct (first_once _ _ _ H2) as [Q _]. rewrite Q in E. apply (f_equal (hd [])) in E. cbn [hd] in E. subst t. rewrite !blen_app in L. change (blen (lit "<")) with 1 in L. change (blen (lit ">")) with 1 in L.
    destruct T as (_ & T & _). destruct Ht as (_ & Ht & _). lia.
Qed.
Definition server_end (s : uas) (q : req) (from contact : sip_uri) (call ctag tag : str) : dialog :=
  mkD (mkId call tag ctag) Confirmed contact [] 0 1 None (us_local s) from (u_sips (us_local s) || u_sips from) None None false.
Definition client_end (s : uas) (la ra : sip_uri) (call ctag tag : str) : dialog :=
  mkD (mkId call ctag tag) Confirmed (us_contact s) [] 1 0 None la ra (u_sips la || u_sips ra) None None true.
Lemma calls_to : forall q p from target contact call ctag code tag, calls q p from target contact call ctag -> code =? 100 = false ->
  tagged_to q code tag = Some (lit "<" ++ u_raw target ++ lit ">;tag=" ++ tag).
Proof.
  intros q p from target contact call ctag code tag (M & G & P & F & T & C & Ct & (v & V) & H1 & H2 & H3 & H4 & H5 & H6) Hc. unfold tagged_to. rewrite (once_get _ _ _ H2), Hc. unfold with_tag.
  change (lit "<" ++ u_raw target ++ lit ">") with (angle target). rewrite angle_contains by exact T. unfold angle. rewrite <- !app_assoc. reflexivity.
Qed.
Lemma ok_id : forall s q b p from target contact call ctag tag, calls q p from target contact call ctag -> tag_text tag ->
  id_of_headers (p_headers (ok_response s q b tag)) = Ret (Some (call, ctag, tag)).
Proof.
  intros s q b p from target contact call ctag tag K Ht. assert (K' := K). destruct K' as (M & G & P & F & T & C & Ct & (v & V) & H1 & H2 & H3 & H4 & H5 & H6).
  unfold ok_response. cbn [p_headers]. unfold id_of_headers.
  destruct (shape_values q (tagged_to q 200 tag) (match b with Some x => print_N (blen x) | None => lit "0" end) (contact_line s :: match b with Some _ => [ln "Content-Type" (lit "application/sdp")] | None => [] end))
    as (_ & _ & X1 & X2 & _ & X3 & _); [destruct b; repeat constructor..|].
  rewrite (calls_to _ _ _ _ _ _ _ 200 tag K eq_refl) in X3 at 2. cbv iota in X3.
  destruct (first_once _ _ _ H1) as [Q1 _]. destruct (first_once _ _ _ H3) as [Q3 _]. rewrite Q1 in X1. rewrite Q3 in X2.
  rewrite (value_of _ _ _ _ X2), (value_of _ _ _ _ X1), (value_of _ _ _ _ X3). rewrite read_tag by assumption.
  change (lit "<" ++ u_raw target ++ lit ">;tag=" ++ tag) with ([] ++ lit "<" ++ u_raw target ++ lit ">;tag=" ++ tag). rewrite read_tag; [reflexivity| |assumption..].
  split; [now left|intros c []].
Qed.
Lemma ok_timer : forall s q b tag, extract_session_timer (ok_response s q b tag) = None.
Proof.
  intros s q b tag. unfold extract_session_timer, ok_response. cbn [p_headers]. unfold header_of. rewrite !first_get. unfold first_value.
  rewrite shape_extra by (cbn; intuition discriminate). replace (values "Session-Expires" _) with (@nil str) by (destruct b; reflexivity).
  change (canonical_name (lit "Session-Expires")) with (lit "Session-Expires"). rewrite first_get. unfold first_value. rewrite shape_extra by (cbn; intuition discriminate).
  replace (values "Session-Expires" _) with (@nil str) by (destruct b; reflexivity). reflexivity.
Qed.
Lemma ok_routes : forall s q b tag, values "Record-Route" (p_headers (ok_response s q b tag)) = values "Record-Route" (q_headers q).
Proof. intros. unfold ok_response. cbn [p_headers]. apply shape_values; destruct b; repeat constructor. Qed.
Lemma ok_contact : forall s q b tag, values "Contact" (p_headers (ok_response s q b tag)) = [lit "<" ++ u_raw (us_contact s) ++ lit ">"].
Proof. intros. unfold ok_response. cbn [p_headers]. rewrite shape_extra by (cbn; intuition discriminate). destruct b; reflexivity. Qed.
Lemma call_accepted : forall s q a p from target contact call ctag sdp tag, calls q p from target contact call ctag -> tag_text tag -> callee s -> authorised a = true ->
  (forall x, sdp = Some x -> blen x <= 1048576) ->
  accept_invite s a q sdp tag = Ret (Some (store s (server_end s q from contact call ctag tag), ok_response s q sdp tag, server_end s q from contact call ctag tag)).
Proof.
  intros s q a p from target contact call ctag sdp tag K Ht [S1 S2] Ha Hb. assert (K' := K). destruct K' as (M & G & P & F & T & C & Ct & (v & V) & H1 & H2 & H3 & H4 & H5 & H6).
  unfold accept_invite, invite_admitted. rewrite M. change (negb (str_eqb (method_str MInvite) (lit "INVITE"))) with false. cbv iota. unfold validate_invite. rewrite M.
  change (negb (str_eqb (method_str MInvite) (lit "INVITE"))) with false. cbv iota.
  replace (existsb (fun n => is_none (hget n (q_headers q))) required_headers) with false.
  2: { unfold required_headers. cbn [map existsb]. rewrite (once_get _ _ _ V), (once_get _ _ _ H1), (once_get _ _ _ H2), (once_get _ _ _ H3), (once_get _ _ _ H4). reflexivity. }
  rewrite (once_of _ _ _ H1), read_tag by assumption. cbn [obind is_none andb]. rewrite Ha. cbn [negb].
  rewrite create_ok_ret; [|now apply (calls_roomy q p from target contact call ctag)|now apply party_plain|exact Hb]. cbn [obind].
  rewrite (read_from q p from ctag H1 P F). unfold new_uas, id_from_response_uas. rewrite (ok_id s q sdp p from target contact call ctag tag K Ht). cbn [rbind].
  unfold dlg_make. change (state_of_code (p_code (ok_response s q sdp tag))) with (Some Confirmed). cbv iota.
  unfold extract_contact at 1 2. rewrite (once_of _ _ _ H5), (read_contact _ contact C eq_refl). rewrite !party_valid by assumption. cbn [no_err is_none andb negb].
  unfold build_route_set. unfold never in H6. rewrite H6. cbn [flat_map add_routes]. change (is_some (validate_route_set [])) with false. cbv iota.
  unfold parse_cseq_number. rewrite (once_of _ _ _ H4). change (split_ws (lit "1 INVITE")) with [lit "1"; lit "INVITE"]. cbv iota. change (parse_uint u32_max (lit "1")) with (Some 1). cbv iota.
  change (is_some (validate_cseq 1)) with false. cbv iota. rewrite ok_timer. reflexivity.
Qed.
Lemma call_returned : forall s q p from target contact call ctag sdp tag la ra, calls q p from target contact call ctag -> tag_text tag -> callee s -> party la -> party ra ->
  new_uac q (ok_response s q sdp tag) la ra = Ret (Some (client_end s la ra call ctag tag)).
Proof.
  intros s q p from target contact call ctag sdp tag la ra K Ht [S1 S2] La Ra. assert (K' := K). destruct K' as (M & G & P & F & T & C & Ct & (v & V) & H1 & H2 & H3 & H4 & H5 & H6).
  unfold new_uac, id_from_response_uac. rewrite (ok_id s q sdp p from target contact call ctag tag K Ht). f_equal.
  unfold dlg_make. change (state_of_code (p_code (ok_response s q sdp tag))) with (Some Confirmed). cbv iota.
  unfold extract_contact at 1 2. rewrite (value_of _ _ _ _ (ok_contact s q sdp tag)), (read_contact _ (us_contact s) S2 eq_refl). rewrite !party_valid by assumption. cbn [no_err is_none andb negb].
  unfold build_route_set. change (hget_all (lit "Record-Route") (p_headers (ok_response s q sdp tag))) with (values "Record-Route" (p_headers (ok_response s q sdp tag))). rewrite ok_routes.
  unfold never in H6. unfold values. rewrite H6. cbn [flat_map add_routes rev]. change (is_some (validate_route_set [])) with false. cbv iota.
  unfold parse_cseq_number. rewrite (once_of _ _ _ H4). change (split_ws (lit "1 INVITE")) with [lit "1"; lit "INVITE"]. cbv iota. change (parse_uint u32_max (lit "1")) with (Some 1). cbv iota.
  change (is_some (validate_cseq 1)) with false. cbv iota. rewrite ok_timer. reflexivity.
Qed.
(** the client's INVITE is such a request *)
Lemma name_part_nil : name_part [].
Proof. split; [now left|intros c []]. Qed.
Lemma escape_in : forall n c, In c (escape_quoted n) -> In c n \/ c = 92.
Proof.
  intros n c H. unfold escape_quoted in H. apply in_flat_map in H. destruct H as (x & Hx & H). destruct ((x =? 92) || (x =? 34)); cbn in H; [|destruct H as [<- | []]; now left].
  destruct H as [<- | [<- | []]]; [now right|now left].
Qed.
Lemma name_part_of : forall (esc : bool) n, plain_name n -> name_part (lit """" ++ (if esc then escape_quoted n else n) ++ lit """ ").
Proof.
  intros esc n [_ H]. split; [right; eexists; reflexivity|]. intros c Hc. apply in_app_or in Hc. destruct Hc as [[<- | []] | Hc]; [repeat split; discriminate|].
  apply in_app_or in Hc. destruct Hc as [Hc | Hc].
  - assert (X : In c n \/ c = 92) by (destruct esc; [now apply escape_in|now left]). destruct X as [X | ->]; [now apply H|repeat split; discriminate].
  - cbn in Hc. destruct Hc as [<- | [<- | []]]; repeat split; discriminate.
Qed.
Lemma invite_calls : forall u f target sdp o q, mk_invite u f target sdp o = Ret q -> caller u -> party target -> (forall x, o = Some x -> party x) -> tag_text (fr_tag f) ->
  exists p, calls q p (sender u (CInvite target sdp o)) target (ua_contact u) (fr_call f ++ lit "@localhost") (fr_tag f).
Proof.
  intros u f target sdp o q H (C1 & C2 & C3 & C4 & C5) T O Ht.
  assert (A : stands_alone u f (CInvite target sdp o) target q).
  { apply (call_alone u f (CInvite target sdp o) u q target); [|reflexivity]. cbn [perform]. unfold mk_invite in *. rewrite H. reflexivity. }
  destruct A as (_ & A1 & A2 & A3 & A4 & _).
  assert (G := H). apply assemble_good in G. apply assemble_eq in H.
  assert (Hs : party (sender u (CInvite target sdp o))).
  { cbn [sender]. destruct o as [x|]; [now apply O|]. destruct (ua_from u) as [x|]; [now apply C3|exact C1]. }
  exists (match ua_display u with Some n => lit """" ++ escape_quoted n ++ lit """ " | None => [] end).
  assert (M : q_method q = MInvite) by now rewrite H.
  unfold calls. split; [exact M|]. split; [exact G|]. split.
  { destruct (ua_display u) as [n|]; [apply (name_part_of true); now apply C4|apply name_part_nil]. }
  split; [exact Hs|]. split; [exact T|]. split; [exact C2|]. split; [exact Ht|]. split; [eexists; exact A4|]. split.
  { rewrite H. destruct sdp; read_headers; unfold from_value, named, tagged, angle; cbn [sender]; destruct (ua_display u), o, (ua_from u); rewrite <- ?app_assoc; reflexivity. }
  split; [exact A1|]. split; [exact A2|]. split; [rewrite M in A3; exact A3|]. rewrite H. split; destruct sdp; read_headers; reflexivity.
Qed.

(** ** Requests inside a call *)
(** the From of a request inside a dialog *)
Definition from_in (u : uac) (d : dialog) (q : req) : Prop :=
  exists p x, once q "From" (p ++ lit "<" ++ u_raw x ++ lit ">;tag=" ++ di_local (d_id d))
  /\ (p = [] \/ exists n, ua_display u = Some n /\ p = lit """" ++ n ++ lit """ ") /\ (x = ua_local u \/ x = d_luri d).
Ltac plain_from := exists [], (ua_local _); split; [read_headers; unfold tagged, angle; rewrite <- ?app_assoc; reflexivity|]; split; [now left|now left].
Lemma dialog_from_in : forall u d, exists p, dialog_from u d = p ++ lit "<" ++ u_raw (ua_local u) ++ lit ">;tag=" ++ di_local (d_id d)
  /\ (p = [] \/ exists n, ua_display u = Some n /\ p = lit """" ++ n ++ lit """ ").
Proof.
  intros u d. unfold dialog_from. destruct (ua_display u) as [n|].
  - exists (lit """" ++ n ++ lit """ "). split; [unfold named, tagged, angle; rewrite <- ?app_assoc; reflexivity|]. right. now exists n.
  - exists []. split; [unfold tagged, angle; rewrite <- ?app_assoc; reflexivity|now left].
Qed.
Lemma from_in_more : forall u d m uri hs b n v, eq_ic n (lit "From") = false -> from_in u d (mkReq m uri hs b) -> from_in u d (mkReq m uri (hs ++ [(n, v)]) b).
Proof.
  intros u d m uri hs b n v Hn (p & x & A & B & C). exists p, x. split; [|now split]. unfold once in *. cbn [q_headers] in *. rewrite get_all_app, A, get_all_cons, Hn. reflexivity.
Qed.
Lemma modify_from : forall u f d up sdp q, mk_modify u f d up sdp = Ret q -> from_in u d q /\ good_headers (q_headers q).
Proof.
  intros u f d up sdp q H. assert (G := H). apply assemble_good in G. split; [|exact G]. apply assemble_eq in H. subst q. destruct (dialog_from_in u d) as (p & E & P).
  exists p, (ua_local u). split; [|split; [exact P|now left]]. destruct up, sdp; read_headers; now rewrite E.
Qed.
Lemma prack_from : forall u f d k q, mk_prack_rack u f d k = Ret q -> from_in u d q /\ good_headers (q_headers q).
Proof.
  intros u f d k q H. assert (G := H). apply assemble_good in G. split; [|exact G]. apply assemble_eq in H. subst q. destruct (dialog_from_in u d) as (p & E & P).
  exists p, (ua_local u). split; [|split; [exact P|now left]]. read_headers. now rewrite E.
Qed.
Lemma add_header_good : forall o n v q, add_header o n v = Ret q -> (forall q0, o = Ret q0 -> good_headers (q_headers q0)) -> good_headers (q_headers q).
Proof.
  intros o n v q H G. unfold add_header in H. destruct o as [q0|]; [|discriminate]. specialize (G q0 eq_refl). destruct (hpush (q_headers q0) n v) as [hs|] eqn:E; [|discriminate].
  injection H as <-. cbn [q_headers]. eapply hpush_good; eassumption.
Qed.
Lemma call_from : forall u f c u' q d, perform u f c = (u', Ret (Some q)) -> dialog_inside c = Some d -> from_in u d q /\ good_headers (q_headers q).
Proof.
  intros u f c u' q d0 H Ht.
  destruct c as [t e ct b s|t|t sdp o|t b ct|t e ct b|t e n|t n|t ct b|r n|d|d r|d sdp|d sdp|d n w up sdp|d ct b|i p d|p d|d r|d r t|s st b|s st x];
    try discriminate Ht; cbn [dialog_inside] in Ht; injection Ht as <-; cbn [perform] in H; injection H as _ H.
  - apply lift_some in H. split; [|now apply assemble_good in H]. apply assemble_eq in H. subst q. exists [], (d_luri d).
    split; [read_headers; unfold tagged, angle; rewrite <- ?app_assoc; reflexivity|]. split; [now left|now right].
  - apply lift_some in H. assert (G := H). apply add_header_good in G; [|intros q0 E; now apply assemble_good in E]. split; [|exact G].
    apply add_header_eq in H as (q0 & H & ->). apply assemble_eq in H. subst q0. cbn [q_method q_uri q_headers q_body app]. exists [], (d_luri d).
    split; [read_headers; unfold tagged, angle; rewrite <- ?app_assoc; reflexivity|]. split; [now left|now right].
  - apply lift_some in H. now apply (modify_from u f d false sdp).
  - apply lift_some in H. now apply (modify_from u f d true sdp).
  - apply lift_some in H. unfold mk_refresh in H.
    match type of H with match ?x with _ => _ end = _ => destruct x as [q0|] eqn:E; [|discriminate] end.
    assert (G0 := E). apply add_header_good in G0; [|intros q1 E1; now apply modify_from in E1].
    apply add_header_eq in E as (q1 & E & ->). apply modify_from in E. destruct E as [E _]. destruct q1 as [m uri hs b]. cbn [q_method q_uri q_headers q_body] in H, G0.
    assert (E2 := from_in_more u d m uri hs b (lit "Session-Expires") (print_N n ++ lit ";refresher=" ++ w) eq_refl E).
    match type of H with (if ?x then _ else _) = _ => destruct x end; [injection H as <-; split; [exact E2|exact G0]|].
    assert (G := H). apply add_header_good in G; [|intros q1 E1; injection E1 as <-; exact G0].
    apply add_header_eq in H as (q1 & H & ->). injection H as <-. split; [now apply from_in_more|exact G].
  - unfold mk_info in H. destruct (short_text MAX_CONTENT_TYPE ct && short_body b); [|discriminate].
    apply lift_some in H. split; [|now apply assemble_good in H]. apply assemble_eq in H. subst q. exists [], (ua_local u).
    split; [read_headers; unfold tagged, angle; rewrite <- ?app_assoc; reflexivity|]. split; [now left|now left].
  - unfold mk_prack in H.
    destruct (header_of (q_headers i) (lit "CSeq")) as [c|]; [|discriminate].
    destruct (split_ws c) as [|n [|m r]]; try discriminate.
    destruct (parse_uint u32_max n) as [k|]; [|discriminate].
    destruct (header_of (p_headers p) (lit "RSeq")) as [rv|]; [|discriminate].
    destruct (parse_uint u32_max rv) as [rs|]; [|discriminate].
    apply lift_some in H. now apply prack_from in H.
  - unfold mk_prack_from in H.
    destruct (header_of (p_headers p) (lit "RSeq")) as [rv|]; [|discriminate].
    destruct (parse_uint u32_max rv) as [rs|]; [|discriminate].
    destruct (header_of (p_headers p) (lit "CSeq")) as [c|]; [|discriminate].
    destruct (split_ws c) as [|n [|m r]]; try discriminate.
    apply lift_some in H. now apply prack_from in H.
  - apply lift_some in H. split; [|now apply assemble_good in H]. apply assemble_eq in H. subst q. exists [], (ua_local u).
    split; [read_headers; unfold tagged, angle; rewrite <- ?app_assoc; reflexivity|]. split; [now left|now left].
  - apply lift_some in H. split; [|now apply assemble_good in H]. apply assemble_eq in H. subst q. exists [], (ua_local u).
    split; [read_headers; unfold tagged, angle; rewrite <- ?app_assoc; reflexivity|]. split; [now left|now left].
Qed.
(** who the request is from and for, as the server reads it *)
Lemma inside_id : forall u f c u' q d, perform u f c = (u', Ret (Some q)) -> dialog_inside c = Some d -> caller u -> party (d_luri d) -> party (d_ruri d) ->
  tag_text (di_local (d_id d)) -> tag_text (di_remote (d_id d)) ->
  id_of_headers (q_headers q) = Ret (Some (di_call (d_id d), di_local (d_id d), di_remote (d_id d))).
Proof.
  intros u f c u' q d H Hi (C1 & C2 & C3 & C4 & C5) L R T1 T2. destruct (call_from _ _ _ _ _ _ H Hi) as [(p & x & F & P & X) _].
  destruct (call_inside _ _ _ _ _ _ H Hi) as (_ & To & Ca & _). unfold id_of_headers. rewrite (once_of _ _ _ Ca), (once_of _ _ _ F), (once_of _ _ _ To).
  rewrite read_tag.
  - change (lit "<" ++ u_raw (d_ruri d) ++ lit ">;tag=" ++ di_remote (d_id d)) with ([] ++ lit "<" ++ u_raw (d_ruri d) ++ lit ">;tag=" ++ di_remote (d_id d)).
    rewrite read_tag; [reflexivity|apply name_part_nil|assumption..].
  - destruct P as [-> | (n & E & ->)]; [apply name_part_nil|]. apply (name_part_of false). now apply C4.
  - destruct X as [-> | ->]; assumption.
  - exact T1.
Qed.
Lemma dialog_request_spec : forall rq d, dialog_request rq d = Ret true <-> id_of_headers (q_headers rq) = Ret (Some (di_call (d_id d), di_remote (d_id d), di_local (d_id d))).
Proof.
  intros rq d. unfold dialog_request, id_of_headers. destruct (header_of (q_headers rq) (lit "Call-ID")) as [c|]; [|split; discriminate].
  destruct (str_eqb c (di_call (d_id d))) eqn:E; cbn [negb].
  - apply str_eqb_spec in E. subst c. destruct (header_of (q_headers rq) (lit "From")) as [f|]; [|split; discriminate].
    destruct (header_of (q_headers rq) (lit "To")) as [t|].
    + destruct (extract_tag f) as [[ft|]|]; [|split; discriminate..]. destruct (extract_tag t) as [[tot|]|]; [|split; discriminate..]. split.
      * intros H. injection H as H. apply andb_prop in H. destruct H as [H1 H2]. apply str_eqb_spec in H1, H2. now subst.
      * intros H. injection H as -> ->. now rewrite !str_eqb_refl.
    + split; [discriminate|]. destruct (extract_tag f) as [[ft|]|]; discriminate.
  - split; [discriminate|]. intros H. exfalso.
    destruct (header_of (q_headers rq) (lit "From")) as [f|]; [|discriminate]. destruct (extract_tag f) as [[ft|]|]; [|discriminate..].
    destruct (header_of (q_headers rq) (lit "To")) as [t|]; [|discriminate]. destruct (extract_tag t) as [[tot|]|]; [|discriminate..]. injection H as -> _ _. rewrite str_eqb_refl in E. discriminate.
Qed.
Lemma never_more : forall m uri hs b n v k, eq_ic n (lit k) = false -> never (mkReq m uri hs b) k -> never (mkReq m uri (hs ++ [(n, v)]) b) k.
Proof. intros m uri hs b n v k Hn H. unfold never in *. cbn [q_headers] in *. rewrite get_all_app, H, get_all_cons, Hn. reflexivity. Qed.
Lemma modify_never : forall u f d up sdp q, mk_modify u f d up sdp = Ret q -> never q "Record-Route".
Proof. intros u f d up sdp q H. apply assemble_eq in H. subst q. destruct up, sdp; read_headers; reflexivity. Qed.
Lemma prack_never : forall u f d k q, mk_prack_rack u f d k = Ret q -> never q "Record-Route".
Proof. intros u f d k q H. apply assemble_eq in H. subst q. read_headers. reflexivity. Qed.
Lemma call_never : forall u f c u' q d, perform u f c = (u', Ret (Some q)) -> dialog_inside c = Some d -> never q "Record-Route".
Proof.
  intros u f c u' q d0 H Ht.
  destruct c as [t e ct b s|t|t sdp o|t b ct|t e ct b|t e n|t n|t ct b|r n|d|d r|d sdp|d sdp|d n w up sdp|d ct b|i p d|p d|d r|d r t|s st b|s st x];
    try discriminate Ht; cbn [dialog_inside] in Ht; injection Ht as <-; cbn [perform] in H; injection H as _ H.
  - apply lift_some in H. apply assemble_eq in H. subst q. read_headers. reflexivity.
  - apply lift_some in H. apply add_header_eq in H as (q0 & H & ->). apply assemble_eq in H. subst q0. cbn [q_method q_uri q_headers q_body app]. read_headers. reflexivity.
  - apply lift_some in H. now apply (modify_never u f d false sdp).
  - apply lift_some in H. now apply (modify_never u f d true sdp).
  - apply lift_some in H. unfold mk_refresh in H.
    match type of H with match ?x with _ => _ end = _ => destruct x as [q0|] eqn:E; [|discriminate] end.
    apply add_header_eq in E as (q1 & E & ->). apply modify_never in E. destruct q1 as [m uri hs b]. cbn [q_method q_uri q_headers q_body] in H.
    assert (E2 := never_more m uri hs b (lit "Session-Expires") (print_N n ++ lit ";refresher=" ++ w) "Record-Route" eq_refl E).
    match type of H with (if ?x then _ else _) = _ => destruct x end; [injection H as <-; exact E2|].
    apply add_header_eq in H as (q1 & H & ->). injection H as <-. now apply never_more.
  - unfold mk_info in H. destruct (short_text MAX_CONTENT_TYPE ct && short_body b); [|discriminate]. apply lift_some in H. apply assemble_eq in H. subst q. read_headers. reflexivity.
  - unfold mk_prack in H.
    destruct (header_of (q_headers i) (lit "CSeq")) as [c|]; [|discriminate].
    destruct (split_ws c) as [|n [|m r]]; try discriminate.
    destruct (parse_uint u32_max n) as [k|]; [|discriminate].
    destruct (header_of (p_headers p) (lit "RSeq")) as [rv|]; [|discriminate].
    destruct (parse_uint u32_max rv) as [rs|]; [|discriminate].
    apply lift_some in H. now apply prack_never in H.
  - unfold mk_prack_from in H.
    destruct (header_of (p_headers p) (lit "RSeq")) as [rv|]; [|discriminate].
    destruct (parse_uint u32_max rv) as [rs|]; [|discriminate].
    destruct (header_of (p_headers p) (lit "CSeq")) as [c|]; [|discriminate].
    destruct (split_ws c) as [|n [|m r]]; try discriminate.
    apply lift_some in H. now apply prack_never in H.
  - apply lift_some in H. apply assemble_eq in H. subst q. read_headers. reflexivity.
  - apply lift_some in H. apply assemble_eq in H. subst q. read_headers. reflexivity.
Qed.
Lemma inside_roomy : forall u f c u' q d tag, perform u f c = (u', Ret (Some q)) -> dialog_inside c = Some d -> tag_text tag -> roomy q tag.
Proof.
  intros u f c u' q d tag H Hi Ht. destruct (call_from _ _ _ _ _ _ H Hi) as [_ G]. destruct (call_inside _ _ _ _ _ _ H Hi) as (_ & To & Ca & Cs & v & x & F & _).
  split; [exact G|]. split; [|split; [|exact Ht]].
  - unfold taken_over. destruct (first_once _ _ _ F) as [-> _]. destruct (first_once _ _ _ To) as [-> _]. destruct (first_once _ _ _ Ca) as [-> _]. destruct (first_once _ _ _ Cs) as [-> _].
    destruct (call_good _ _ _ _ _ H) as (((b & V) & _) & _). destruct (first_once _ _ _ V) as [_ ->].
    assert (R := call_never _ _ _ _ _ _ H Hi). unfold never in R. unfold values. rewrite R. unfold llen; cbn; lia.
  - apply overflow_not. right. eexists. split; [exact (once_get _ _ _ To)|]. apply contains_spec.
    exists (lit "<" ++ u_raw (d_ruri d) ++ lit ">"), (di_remote (d_id d)). rewrite <- !app_assoc. reflexivity.
Qed.
(** the server's dialog that belongs to the client's [e] *)
Lemma inside_server : forall u f c u' q e d, perform u f c = (u', Ret (Some q)) -> dialog_inside c = Some e -> caller u -> party (d_luri e) -> party (d_ruri e) ->
  tag_text (di_local (d_id e)) -> tag_text (di_remote (d_id e)) -> d_id d = mkId (di_call (d_id e)) (di_remote (d_id e)) (di_local (d_id e)) ->
  dialog_request q d = Ret true /\ forall m, dm_find m q = Ret (dm_get m (d_id d)).
Proof.
  intros u f c u' q e d H Hi C L R T1 T2 E. assert (I := inside_id _ _ _ _ _ _ H Hi C L R T1 T2). split.
  - apply dialog_request_spec. rewrite E. exact I.
  - intros m. unfold dm_find, id_from_request. rewrite I, E. reflexivity.
Qed.
(** a table without an entry *)
Lemma removed_without : forall m id, without id m (fst (dm_remove m id)).
Proof.
  intros m id. unfold dm_remove, without, dm_get. cbn [fst]. split.
  - apply lookup_remove_same.
  - intros i Hi. apply (lookup_remove_other _ did_eqb_spec). congruence.
Qed.
Lemma bye_handled : forall s rq d tag, method_str (q_method rq) = lit "BYE" -> dialog_request rq d = Ret true -> roomy rq tag -> plain_uri_text (us_contact s) ->
  handle_bye s rq d tag = Ret (Some (put_dialogs s (fst (dm_remove (us_dialogs s) (d_id d))), ok_response s rq None tag)).
Proof.
  intros s rq d tag M D R C. unfold handle_bye, inside. rewrite M. change (negb (str_eqb (lit "BYE") (lit "BYE"))) with false. cbv iota. rewrite D. cbn [obind negb].
  rewrite create_ok_ret; [reflexivity|exact R|exact C|discriminate].
Qed.
