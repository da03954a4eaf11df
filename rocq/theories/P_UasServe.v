(** Properties C142 to C144: what the integrated server does with a request, the
    headers it fills in, and its notifications. *)
From Coq Require Import Arith NArith Bool String List Lia ZifyBool ZifyN ZifyNat.
Import ListNotations.
From Verif Require Import Base BaseFacts NumFacts Headers HeadersProofs Method Text TextFacts Uri UriProofs Msg Message MessageProofs Dialog DialogProofs P_Dialog Prack Via ViaSpec ViaProofs P_Via TxManager Dns
  Uac UacSpec UacProofs UacReads P_Uac Uas UasServe UasSpec UasProofs UasCalls UasTalk UasFill P_Uas P_UasCall.
From Verif Require UacSendProofs ProxyCoreProofs SdpTextSpec SdpTextProofs.
Open Scope N_scope.
Open Scope list_scope.

(** ** C143: the headers filled in *)
(** the Contact a response goes out with: the server's user at the advertised
    address, the port the request came in on if that is known *)
Definition contact_wanted (g : settings) (s : uas) (c : arrival) (v : str) : Prop :=
  let user := match u_user (us_contact s) with Some u => u | None => lit "server" end in
  let addr := match se_public g with Some a => a | None => se_local g end in
  let port := match ar_local c with Some l => snd l | None => snd addr end in
  v = lit "<sip:" ++ user ++ lit "@" ++ fst addr ++ lit ":" ++ print_N port ++ lit ";transport=" ++ transport_word (ar_transport c) ++ lit ">".
(** [r'] is [r] with the top Via completed and Contact, Allow and Server in place *)
Definition filled (g : settings) (s : uas) (c : arrival) (r r' : resp) : Prop :=
  p_code r' = p_code r /\ p_reason r' = p_reason r /\ p_body r' = p_body r
  /\ (forall n, (forall k, In k ["Via"; "Contact"; "Allow"; "Server"]%string -> eq_ic (lit k) n = false) -> hget_all n (p_headers r') = hget_all n (p_headers r))
  /\ (match values "Via" (p_headers r) with [] => values "Via" (p_headers r') = [] | t :: rest => exists t', values "Via" (p_headers r') = t' :: rest end)
  /\ (if se_via g then values "Via" (p_headers r') = values "Via" (apply_via (p_headers r) (fst (ar_peer c)) (snd (ar_peer c))) else values "Via" (p_headers r') = values "Via" (p_headers r))
  /\ values "Allow" (p_headers r') = match values "Allow" (p_headers r) with [] => [se_allow g] | l => l end
  /\ values "Server" (p_headers r') = match values "Server" (p_headers r) with [] => [se_agent g] | l => l end
  /\ (se_contact g = false -> values "Contact" (p_headers r') = values "Contact" (p_headers r))
  /\ (se_contact g = true -> llen (p_headers r) < 200 -> forall v, contact_wanted g s c v -> validate_header_value v = None ->
        values "Contact" (p_headers r') = v :: tl (values "Contact" (p_headers r))).
Lemma via_first : forall g c hs, match hget_all (lit "Via") hs with [] => hget_all (lit "Via") (with_via g c hs) = [] | t :: rest => exists t', hget_all (lit "Via") (with_via g c hs) = t' :: rest end.
Proof.
  intros g c hs. unfold with_via. destruct (se_via g); [|destruct (hget_all _ hs); eauto]. unfold apply_via. rewrite UacSendProofs.get_first.
  destruct (hget_all (lit "Via") hs) as [|t rest] eqn:A; [exact A|]. destruct (via_parse t) as [v|]; [|eauto]. destruct (fill_via v _ _) as [v' ch]. destruct ch; [|eauto].
  destruct (hset_or_push hs (lit "Via") (via_print v')) as [hs'|] eqn:E; [|eauto]. cbn [or_same]. rewrite (set_values _ _ _ _ E), A. cbn [tl]. eauto.
Qed.
Theorem C143_filled : forall g s c r r', auto_fill g s c r = Ret r' -> filled g s c r r'.
Proof.
  intros g s c r r' H. apply fill_inv in H. destruct H as (h3 & h4 & A & B & ->). unfold filled. cbn [p_code p_reason p_body p_headers]. unfold values.
  assert (O : forall n, eq_ic (lit "Allow") n = false -> eq_ic (lit "Server") n = false -> hget_all n h4 = hget_all n (with_contact g s c (with_via g c (p_headers r)))).
  { intros n N1 N2. now rewrite (add_other _ _ _ _ n B N2), (add_other _ _ _ _ n A N1). }
  split; [reflexivity|]. split; [reflexivity|]. split; [reflexivity|]. split.
  { intros n Hn. rewrite O by (apply Hn; cbn; tauto). rewrite contact_other by (apply Hn; cbn; tauto). apply via_other. apply Hn; cbn; tauto. }
  split; [rewrite O by reflexivity; rewrite contact_other by reflexivity; apply via_first|].
  split; [rewrite O by reflexivity; rewrite contact_other by reflexivity; unfold with_via; destruct (se_via g); reflexivity|].
  split; [rewrite (add_other _ _ _ _ (lit "Allow") B eq_refl), (add_same _ _ _ _ A), contact_other by reflexivity; now rewrite via_other by reflexivity|].
  split; [rewrite (add_same _ _ _ _ B), (add_other _ _ _ _ (lit "Server") A eq_refl), contact_other by reflexivity; now rewrite via_other by reflexivity|].
  split.
  - intros C. rewrite O by reflexivity. unfold with_contact. rewrite C. now rewrite via_other by reflexivity.
  - intros C L v W V. rewrite O by reflexivity. unfold with_contact. rewrite C. replace (contact_value _ _ _ _) with v by (unfold contact_wanted in W; rewrite W; reflexivity).
    destruct (via_keeps g c (p_headers r)) as (_ & _ & L1). destruct (hset_or_push (with_via g c (p_headers r)) (lit "Contact") v) as [h|] eqn:E.
    + cbn [or_same]. rewrite (set_values _ _ _ _ E). now rewrite via_other by reflexivity.
    + exfalso. unfold hset_or_push in E. change (validate_header_name (lit "Contact")) with (@None header_error) in E. cbv iota in E. rewrite V in E.
      destruct (set_first _ _ _); [discriminate|]. unfold MAX_HEADERS in E. replace (200 <=? _) with false in E by (symmetry; apply N.leb_gt; rewrite L1; exact L). discriminate.
Qed.
Print Assumptions C143_filled.
(** filling in once more changes nothing *)
Theorem C143_idempotent : forall g s c r r', address_text (fst (ar_peer c)) -> snd (ar_peer c) <= 65535 -> auto_fill g s c r = Ret r' -> auto_fill g s c r' = Ret r'.
Proof. exact fill_idempotent. Qed.
Print Assumptions C143_idempotent.
Theorem C143_no_panic_partial : forall g s c r, llen (p_headers r) <= 197 -> validate_header_value (se_allow g) = None -> validate_header_value (se_agent g) = None ->
  exists r', auto_fill g s c r = Ret r'.
Proof. exact fill_ret. Qed.
Print Assumptions C143_no_panic_partial.
Definition options_1 : req :=
  mkReq MOptions (SipU robert_here) [(lit "Via", lit "SIP/2.0/UDP a;rport;branch=z9hG4bK1"); (lit "From", lit "<sip:alice@a.example>;tag=t1"); (lit "To", lit "<sip:robert@b.example>");
    (lit "Call-ID", lit "c1@localhost"); (lit "CSeq", lit "2 OPTIONS")] [].
Example C143_example : exists r r', create_response options_1 501 (lit "Not Implemented") (lit "x") = Ret r /\ auto_fill settings1 server1 arrival1 r = Ret r'
  /\ values "Via" (p_headers r') = [lit "SIP/2.0/UDP a;branch=z9hG4bK1;received=10.0.0.2;rport=5060"] /\ values "Contact" (p_headers r') = [lit "<sip:robert@10.0.0.1:5060;transport=udp>"]
  /\ values "Server" (p_headers r') = [lit "siphon"] /\ values "Allow" (p_headers r') = [DEFAULT_ALLOW] /\ address_text (fst (ar_peer arrival1)) /\ llen (p_headers r) <= 197.
Proof.
  do 2 eexists. split; [vm_compute; reflexivity|]. split; [vm_compute; reflexivity|]. split; [vm_compute; reflexivity|]. split; [vm_compute; reflexivity|]. split; [vm_compute; reflexivity|]. split; [vm_compute; reflexivity|].
  split; [|vm_compute; discriminate]. split; [discriminate|]. split; [vm_compute; discriminate|]. apply (proj1 (Forall_forall _ _)).
  assert (F : forallb (fun c => in_range 33 126 c && negb (c =? 59) && negb (c =? 91) && negb (c =? 93)) (lit "10.0.0.2") = true) by (vm_compute; reflexivity).
  apply Forall_forall. intros c Hc. rewrite forallb_forall in F. apply F in Hc. unfold in_range in Hc. lia.
Qed.
(** an IPv6 address is written without brackets, so that nobody can read the Contact *)
Definition settings6 : settings := mkSettings true true true (lit "siphon") false (lit "2001:db8::1", 5060) None DEFAULT_ALLOW.
Theorem C143_v6_refuted : exists r r', create_response options_1 501 (lit "Not Implemented") (lit "x") = Ret r /\ auto_fill settings6 server1 arrival1 r = Ret r'
  /\ values "Contact" (p_headers r') = [lit "<sip:robert@2001:db8::1:5060;transport=udp>"] /\ extract_contact (p_headers r') = None.
Proof. do 2 eexists. split; [vm_compute; reflexivity|]. split; [vm_compute; reflexivity|]. split; vm_compute; reflexivity. Qed.
Print Assumptions C143_v6_refuted.
(** a response that takes over 199 headers can be built and not be completed *)
Definition full_request : req := mkReq MOptions (SipU robert_here) (List.repeat (lit "Via", lit "x") 199) [].
Theorem C143_full_refuted : (forall g s c rq code reason tag r, create_response rq code reason tag = Ret r -> taken_over rq = 199 -> auto_fill g s c r = Panics)
  /\ taken_over full_request = 199 /\ exists r, create_response full_request 481 (lit "x") (lit "t") = Ret r.
Proof.
  split; [|split].
  - intros g s c rq code reason tag r H T. destruct (auto_fill g s c r) as [r'|] eqn:F; [|reflexivity]. exfalso. apply fill_inv in F. destruct F as (h3 & h4 & A & _).
    apply create_inv in H. destruct H as [_ ->]. cbn [p_headers] in A. set (hs := shape rq (tagged_to rq code tag) (lit "0") []) in A.
    assert (L : llen hs = 200) by (unfold hs; rewrite tagged_count, T; reflexivity).
    assert (N : hget_all (lit "Allow") hs = []) by (unfold hs; apply (eq_trans (y := values "Allow" [])); [apply shape_extra; cbn; intuition discriminate|reflexivity]).
    apply add_missing_inv in A. destruct A as [[A _] | (_ & _ & A & _)].
    + apply A. rewrite UacSendProofs.get_first, contact_other, via_other by reflexivity. rewrite N. reflexivity.
    + unfold with_contact in A. destruct (via_keeps g c hs) as (_ & _ & L1). set (h1 := with_via g c hs) in *. destruct (se_contact g); [|lia].
      destruct (hset_or_push h1 _ _) as [h|] eqn:E; cbn [or_same] in A; [|lia]. apply ProxyCoreProofs.set_or_push_cases in E. destruct E as [E | [_ ->]]; [apply set_first_values in E; lia|].
      unfold llen in *. rewrite app_length in A. cbn in A. lia.
  - vm_compute. reflexivity.
  - destruct (create_response full_request 481 (lit "x") (lit "t")) as [r|] eqn:E; [now exists r|]. exfalso. apply create_exact in E.
    + destruct E as [E | [E | [_ E]]].
      * apply E. split; [lia|]. split; [vm_compute; discriminate|]. intros x Hx. cbn in Hx. destruct Hx as [<- | []]. reflexivity.
      * vm_compute in E. now apply E.
      * destruct E as (t & E & _). vm_compute in E. discriminate.
    + split; [|vm_compute; discriminate]. apply Forall_forall. intros h Hh. apply repeat_spec in Hh. subst h.
      destruct (header_new (lit "Via") (lit "x")) as [h|] eqn:X; [|discriminate]. assert (X' := X). apply header_new_ok in X. destruct X as [-> X]. exact X.
    + split; [discriminate|]. split; [vm_compute; discriminate|]. intros x Hx. cbn in Hx. destruct Hx as [<- | []]. reflexivity.
Qed.
Print Assumptions C143_full_refuted.

(** ** C142: what happens to a request *)
(** the request passes the gate of C139 *)
Definition let_in (g : settings) (a : auth_verdict) (rq : req) : Prop := se_auth g = false \/ q_method rq = MAck \/ authorised a = true.
Lemma dispatch_route : forall g s c a ch rq ok tag, let_in g a rq -> dispatch g s c a ch rq ok tag = route g s c rq ok tag.
Proof.
  intros g s c a ch rq ok tag [H | [H | H]]; unfold dispatch.
  - now rewrite H.
  - rewrite H. cbn [method_eqb negb]. now rewrite andb_false_r.
  - unfold authorised in H. destruct (verify_authentication a) as [[|]|]; [|discriminate..]. now destruct (_ && _).
Qed.
(** a reply to a request: the same Via values but for the first, which may be
    completed; Record-Route, From, Call-ID and CSeq as they came; To with a tag *)
Definition replies (untagged : bool) (rq : req) (tag : str) (r : resp) : Prop :=
  (match values "Via" (q_headers rq) with [] => values "Via" (p_headers r) = [] | t :: rest => exists t', values "Via" (p_headers r) = t' :: rest end)
  /\ values "Record-Route" (p_headers r) = values "Record-Route" (q_headers rq)
  /\ values "From" (p_headers r) = first_value "From" (q_headers rq)
  /\ values "Call-ID" (p_headers r) = first_value "Call-ID" (q_headers rq)
  /\ values "CSeq" (p_headers r) = first_value "CSeq" (q_headers rq)
  /\ to_of untagged rq tag r.
Lemma fill_replies : forall g s c r r' b rq tag, auto_fill g s c r = Ret r' -> mirrors rq r -> to_of b rq tag r -> replies b rq tag r'.
Proof.
  intros g s c r r' b rq tag H (M1 & M2 & M3 & M4 & M5) T. apply C143_filled in H. destruct H as (_ & _ & _ & O & V & _).
  assert (X : forall n, (forall k, In k ["Via"; "Contact"; "Allow"; "Server"]%string -> eq_ic (lit k) (lit n) = false) -> values n (p_headers r') = values n (p_headers r)) by (intros n; apply O).
  assert (Y : forall n, In n ["Record-Route"; "From"; "Call-ID"; "CSeq"; "To"]%string -> values n (p_headers r') = values n (p_headers r)).
  { intros n Hn. apply X. intros k Hk. cbn in Hn, Hk. repeat (destruct Hn as [<- | Hn]; [repeat (destruct Hk as [<- | Hk]; [reflexivity|]); destruct Hk|]). destruct Hn. }
  unfold replies. rewrite M1 in V. split; [exact V|]. rewrite !Y by (cbn; tauto). repeat (split; [assumption|]). unfold to_of in *. rewrite Y by (cbn; tauto). exact T.
Qed.
Lemma fill_code : forall g s c r r', auto_fill g s c r = Ret r' -> p_code r' = p_code r /\ p_reason r' = p_reason r /\ p_body r' = p_body r.
Proof. intros g s c r r' H. apply C143_filled in H. destruct H as (A & B & C & _). now repeat split. Qed.
Lemma sent_reply : forall g s c rq code reason tag r, obind (create_response rq code reason tag) (auto_fill g s c) = Ret r -> p_code r = code /\ p_reason r = reason /\ replies (code =? 100) rq tag r.
Proof.
  intros g s c rq code reason tag r H. destruct (create_response rq code reason tag) as [r0|] eqn:E; cbn [obind] in H; [|discriminate].
  assert (E' := E). apply create_inv in E. destruct E as [_ E]. destruct (fill_code _ _ _ _ _ H) as (C1 & C2 & _). rewrite C1, C2, E. cbn [p_code p_reason]. split; [reflexivity|]. split; [reflexivity|].
  apply (fill_replies _ _ _ _ _ _ _ _ H).
  - rewrite E. apply shape_mirrors. seven_ok.
  - rewrite E. apply shape_to; [seven_ok|reflexivity].
Qed.

(** an INVITE that can start a call *)
Definition startable (rq : req) : Prop :=
  (forall n, In n ["Via"; "From"; "To"; "Call-ID"; "CSeq"]%string -> values n (q_headers rq) <> [])
  /\ exists f rest t, values "From" (q_headers rq) = f :: rest /\ extract_tag f = Ret (Some t).
Lemma validate_spec : forall rq tag o, q_method rq = MInvite -> validate_invite rq tag = Ret o ->
  match o with None => startable rq | Some r => ~ startable rq /\ create_bad_request rq tag = Ret r end.
Proof.
  intros rq tag o M H. unfold validate_invite in H. rewrite M in H. change (negb (str_eqb (method_str MInvite) (lit "INVITE"))) with false in H. cbv iota zeta in H.
  assert (B : forall x, obind (create_bad_request rq tag) (fun r => Ret (Some r)) = Ret x -> exists r, x = Some r /\ create_bad_request rq tag = Ret r).
  { intros x Hx. destruct (create_bad_request rq tag) as [r|]; cbn [obind] in Hx; [|discriminate]. injection Hx as <-. now exists r. }
  destruct (existsb _ _) eqn:E.
  - apply B in H. destruct H as (r & -> & H). split; [|exact H]. intros [S _]. apply existsb_exists in E. destruct E as (n & Hn & E). unfold required_headers in Hn. apply in_map_iff in Hn.
    destruct Hn as (k & <- & Hk). apply (S k Hk). rewrite UacSendProofs.get_first in E. unfold values. now destruct (hget_all (lit k) (q_headers rq)).
  - assert (S : forall n, In n ["Via"; "From"; "To"; "Call-ID"; "CSeq"]%string -> values n (q_headers rq) <> []).
    { intros n Hn X. apply not_true_iff_false in E. apply E. apply existsb_exists. exists (lit n). split; [unfold required_headers; now apply in_map|]. rewrite UacSendProofs.get_first. unfold values in X. now rewrite X. }
    destruct (values "From" (q_headers rq)) as [|f rest] eqn:F; [elim (S "From"%string); [cbn; tauto|exact F]|].
    unfold header_of in H. change (canonical_name (lit "From")) with (lit "From") in H. rewrite UacSendProofs.get_first in H. unfold values in F. rewrite F in H.
    destruct (extract_tag f) as [[t|]|] eqn:T; [|apply B in H; destruct H as (r & -> & H)|discriminate].
    + injection H as <-. split; [exact S|]. exists f, rest, t. split; [exact F|exact T].
    + split; [|exact H]. intros [_ (f' & rest' & t' & F' & T')]. unfold values in F'. rewrite F in F'. injection F' as <- <-. congruence.
Qed.
Lemma options_inv : forall g rq tag r, obind (accept_options rq tag) (set_line (ln "Allow" (se_allow g))) = Ret r ->
  r = mkResp 200 (lit "OK") (shape rq (tagged_to rq 200 tag) (lit "0") [ln "Allow" (se_allow g); ln "Accept" (lit "application/sdp")]) [].
Proof.
  intros g rq tag r H. unfold accept_options, plain_ok in H. destruct (create_response rq 200 (lit "OK") tag) as [r0|] eqn:E; cbn [obind] in H; [|discriminate]. apply create_inv in E. destruct E as [_ ->].
  assert (Q : forall n, In n ["Allow"; "Accept"]%string -> ~ In (lower (lit n)) (map (fun k => lower (lit k)) ["Via"; "From"; "Call-ID"; "CSeq"; "To"; "Record-Route"; "Content-Length"]%string)).
  { intros n [<- | [<- | []]]; cbn; intuition discriminate. }
  unfold ln in H. destruct (set_line (lit "Allow", BASE_ALLOW) _) as [r1|] eqn:E1; cbn [obind] in H; [|discriminate].
  apply set_line_inv in E1. destruct E1 as (hs & -> & E1). cbn [p_headers p_code p_reason p_body] in *. rewrite set_extra_shape in E1 by (apply (Q "Allow"%string); cbn; tauto). cbn [set_first] in E1.
  destruct E1 as [E1 | [_ E1]]; [discriminate|]. rewrite shape_snoc in E1. cbn [app] in E1. subst hs.
  destruct (set_line (lit "Accept", _) _) as [r2|] eqn:E2; cbn [obind] in H; [|discriminate].
  apply set_line_inv in E2. destruct E2 as (hs & -> & E2). cbn [p_headers p_code p_reason p_body] in *. rewrite set_extra_shape in E2 by (apply (Q "Accept"%string); cbn; tauto).
  change (set_first (lit "Accept") (lit "application/sdp") [(lit "Allow", BASE_ALLOW)]) with (@None (list (str * str))) in E2. destruct E2 as [E2 | [_ E2]]; [discriminate|]. rewrite shape_snoc in E2. cbn [app] in E2. subst hs.
  apply set_line_inv in H. destruct H as (hs & -> & H). cbn [p_headers p_code p_reason p_body] in *. rewrite set_extra_shape in H by (apply (Q "Allow"%string); cbn; tauto).
  rewrite set_first_here in H by reflexivity. destruct H as [H | [H _]]; [|discriminate]. injection H as <-. reflexivity.
Qed.
(** the server answers on its own in four cases *)
Definition own_answer (g : settings) (s : uas) (rq : req) (code : N) : Prop :=
  (q_method rq = MInvite /\ ~ startable rq /\ code = 400)
  \/ (q_method rq = MOptions /\ code = 200)
  \/ (needs_dialog (q_method rq) <> None /\ dm_find (us_dialogs s) rq = Ret None /\ code = 481)
  \/ ((q_method rq = MMessage \/ q_method rq = MPublish \/ exists x, q_method rq = MUnknown x) /\ code = 501).
(** and asks the application in the others *)
Definition asks (s : uas) (rq : req) (m : string) (d : option dialog) : Prop :=
  lit m = method_str (q_method rq)
  /\ ((q_method rq = MInvite /\ startable rq /\ dm_find (us_dialogs s) rq = Ret d)
      \/ ((needs_dialog (q_method rq) <> None \/ q_method rq = MAck) /\ d <> None /\ dm_find (us_dialogs s) rq = Ret d)
      \/ (In (q_method rq) [MCancel; MRegister; MSubscribe; MNotify] /\ d = None)).
(** Every request that is let in is answered by the server once, or given to the
    application once, and not both.  An ACK outside of any dialog is dropped.
    INVITEs that are given to the application are preceded by a 100 if that is
    configured; a CANCEL the application has taken is followed by a 487 for the
    INVITE it names. *)
Theorem C142_once : forall g s c a ch rq ok tag es e, let_in g a rq -> dispatch g s c a ch rq ok tag = (es, e) -> e <> Crashed ->
  (exists r, es = [Final r] /\ own_answer g s rq (p_code r) /\ replies false rq tag r /\ e = Done)
  \/ (exists m d, asks s rq m d /\ e = (if ok then Done else Failed)
      /\ match q_method rq with
         | MInvite => if se_trying g then exists r, es = [Provisional r; Handler m d] /\ p_code r = 100 /\ replies true rq tag r else es = [Handler m d]
         | MCancel => if ok then match extract_branch (q_headers rq) with
                                 | Some b => exists r, es = [Handler m d; FinalOf b r] /\ p_code r = 487
                                 | None => es = [Handler m d]
                                 end
                      else es = [Handler m d]
         | _ => es = [Handler m d]
         end)
  \/ (es = [] /\ e = Done /\ q_method rq = MAck /\ dm_find (us_dialogs s) rq = Ret None).
Proof.
  intros g s c a ch rq ok tag es e L H NC. rewrite (dispatch_route _ _ _ _ _ _ _ _ L) in H.
  assert (SF : forall code reason k, code <> 100 -> own_answer g s rq code -> sending (obind (create_response rq code reason tag) (auto_fill g s c)) Final k = (es, e) -> k = stop ->
    exists r, es = [Final r] /\ own_answer g s rq (p_code r) /\ replies false rq tag r /\ e = Done).
  { intros code reason k Hc W X ->. unfold sending in X. destruct (obind _ _) as [r|] eqn:E; [|injection X as <- <-; congruence]. injection X as <- <-.
    destruct (sent_reply _ _ _ _ _ _ _ _ E) as (C1 & _ & C3). replace (code =? 100) with false in C3 by lia. exists r. split; [reflexivity|]. rewrite C1. now split. }
  assert (AS : forall m d, asking m d ok stop = (es, e) -> es = [Handler m d] /\ e = if ok then Done else Failed) by (intros m d X; unfold asking, stop in X; destruct ok; injection X as <- <-; split; reflexivity).
  assert (ID : forall m, needs_dialog (q_method rq) = Some m -> lit m = method_str (q_method rq) -> in_dialog g s c m rq ok tag = (es, e) ->
    (exists r, es = [Final r] /\ own_answer g s rq (p_code r) /\ replies false rq tag r /\ e = Done) \/ (exists d, asks s rq m d /\ e = (if ok then Done else Failed) /\ es = [Handler m d])).
  { intros m Hm Hn X. unfold in_dialog in X. destruct (dm_find (us_dialogs s) rq) as [[d|]|] eqn:F; [|left|injection X as <- <-; congruence].
    - right. apply AS in X. destruct X as [-> ->]. exists (Some d). split; [|split; reflexivity]. split; [exact Hn|]. right. left. split; [left; congruence|]. split; [discriminate|exact F].
    - eapply (SF 481); [lia| |exact X|reflexivity]. right. right. left. split; [congruence|]. split; [exact F|reflexivity]. }
  assert (SIMPLE : forall m, In (q_method rq) [MCancel; MRegister; MSubscribe; MNotify] -> lit m = method_str (q_method rq) -> asks s rq m None) by (intros m X Y; split; [exact Y|right; right; now split]).
  unfold route in H. destruct (q_method rq) eqn:M;
    try (destruct (ID _ eq_refl eq_refl H) as [X | (d & X & Y & Z)]; [now left|right; left; eexists; exists d; split; [exact X|split; [exact Y|exact Z]]]);
    try (left; eapply (SF 501); [lia| |exact H|reflexivity]; do 3 right; split; [rewrite M; eauto|reflexivity]);
    try (apply AS in H; destruct H as [-> ->]; right; left; do 2 eexists; split; [apply SIMPLE; [cbn; tauto|reflexivity]|split; reflexivity]).
  - (* INVITE *)
    destruct (validate_invite rq tag) as [[r0|]|] eqn:V; [| |injection H as <- <-; congruence].
    + destruct (validate_spec rq tag _ M V) as [NS BR]. left. unfold sending in H. destruct (auto_fill g s c r0) as [r|] eqn:F; [|injection H as <- <-; congruence]. injection H as <- <-.
      exists r. split; [reflexivity|]. destruct (fill_code _ _ _ _ _ F) as (C1 & _). unfold create_bad_request in BR. apply reject_inv in BR; [|reflexivity]. destruct BR as [_ BR].
      split; [left; split; [exact M|split; [exact NS|rewrite C1, BR; reflexivity]]|]. split; [|reflexivity]. apply (fill_replies _ _ _ _ _ _ _ _ F); rewrite BR; [apply shape_mirrors; seven_ok|apply shape_to; [seven_ok|reflexivity]].
    + pose proof (validate_spec rq tag _ M V) as ST. cbn in ST. destruct (dm_find (us_dialogs s) rq) as [d|] eqn:F; [|injection H as <- <-; congruence].
      right. left. exists "INVITE"%string, d. assert (W : asks s rq "INVITE" d) by (split; [now rewrite M|left; split; [exact M|split; [exact ST|exact F]]]). split; [exact W|].
      cbv zeta in H. destruct (se_trying g).
      * unfold sending, create_trying in H. destruct (obind _ _) as [r|] eqn:E; [|injection H as <- <-; congruence]. destruct (sent_reply _ _ _ _ _ _ _ _ E) as (C1 & _ & C3).
        unfold asking, stop in H. destruct ok; injection H as <- <-; (split; [reflexivity|]; exists r; split; [reflexivity|split; [exact C1|exact C3]]).
      * apply AS in H. destruct H as [-> ->]. split; reflexivity.
  - (* ACK *)
    destruct (dm_find (us_dialogs s) rq) as [[d|]|] eqn:F; [| |injection H as <- <-; congruence].
    + apply AS in H. destruct H as [-> ->]. right. left. exists "ACK"%string, (Some d). split; [|split; reflexivity]. split; [now rewrite M|]. right. left. split; [now right|]. split; [discriminate|exact F].
    + injection H as <- <-. right. right. now repeat split.
  - (* CANCEL *)
    right. left. exists "CANCEL"%string, None. split; [apply SIMPLE; [cbn; tauto|reflexivity]|]. unfold asking in H. destruct ok; [|injection H as <- <-; split; reflexivity].
    destruct (extract_branch (q_headers rq)) as [b|]; [|injection H as <- <-; split; reflexivity]. unfold sending in H. destruct (obind _ _) as [r|] eqn:E; [|injection H as <- <-; cbn in NC; congruence].
    injection H as <- <-. split; [reflexivity|]. exists r. split; [reflexivity|]. destruct (terminated_from_cancel rq tag) as [r0|] eqn:T; cbn [obind] in E; [|discriminate].
    destruct (fill_code _ _ _ _ _ E) as (C1 & _). rewrite C1. unfold terminated_from_cancel, create_request_terminated in T. destruct (reject rq 487 _ tag) as [r1|] eqn:R; cbn [obind] in T; [|discriminate].
    apply reject_inv in R; [|reflexivity]. destruct R as [_ ->]. destruct (hget _ _) as [v|]; [|injection T as <-; reflexivity]. apply set_line_inv in T. destruct T as (hs & -> & _). reflexivity.
  - (* OPTIONS *)
    left. unfold sending in H. destruct (obind _ _) as [r|] eqn:E; [|injection H as <- <-; congruence]. injection H as <- <-. exists r. split; [reflexivity|].
    assert (X : exists r0, obind (accept_options rq tag) (set_line (ln "Allow" (se_allow g))) = Ret r0 /\ auto_fill g s c r0 = Ret r).
    { destruct (accept_options rq tag) as [r1|]; cbn [obind] in E |- *; [|discriminate]. destruct (set_line _ r1) as [r2|]; cbn [obind] in E; [|discriminate]. now exists r2. }
    destruct X as (r0 & X1 & X2). apply options_inv in X1. subst r0. destruct (fill_code _ _ _ _ _ X2) as (C1 & _). rewrite C1. cbn [p_code].
    split; [right; left; split; [exact M|reflexivity]|]. split; [|reflexivity]. apply (fill_replies _ _ _ _ _ _ _ _ X2); [apply shape_mirrors; seven_ok|apply shape_to; [seven_ok|reflexivity]].
Qed.
Print Assumptions C142_once.
(** the 487 that follows a CANCEL: it goes to the INVITE with the CANCEL's branch and
    has that INVITE's CSeq *)
Theorem C142_cancel : forall g s c a ch rq ok tag es e b r, dispatch g s c a ch rq ok tag = (es, e) -> In (FinalOf b r) es -> let_in g a rq ->
  q_method rq = MCancel /\ ok = true /\ extract_branch (q_headers rq) = Some b /\ p_code r = 487 /\ p_reason r = lit "Request Terminated"
  /\ (match values "Via" (q_headers rq) with [] => values "Via" (p_headers r) = [] | t :: rest => exists t', values "Via" (p_headers r) = t' :: rest end)
  /\ values "From" (p_headers r) = first_value "From" (q_headers rq) /\ values "Call-ID" (p_headers r) = first_value "Call-ID" (q_headers rq) /\ to_of false rq tag r
  /\ forall v rest w ws, values "CSeq" (q_headers rq) = v :: rest -> split_ws v = w :: ws -> values "CSeq" (p_headers r) = [w ++ lit " INVITE"].
Proof.
  intros g s c a ch rq ok tag es e b r H I L. rewrite (dispatch_route _ _ _ _ _ _ _ _ L) in H.
  assert (NS : forall o k, sending o Final k = (es, e) -> k = stop -> False) by (intros o k X ->; unfold sending in X; destruct o; injection X as <- <-; cbn in I; intuition discriminate).
  assert (NA : forall m d, asking m d ok stop = (es, e) -> False) by (intros m d X; unfold asking in X; destruct ok; injection X as <- <-; cbn in I; intuition discriminate).
  assert (ND : forall m, in_dialog g s c m rq ok tag = (es, e) -> False).
  { intros m X. unfold in_dialog in X. destruct (dm_find _ _) as [[d|]|]; [now apply NA in X|exact (NS _ _ X eq_refl)|]. injection X as <- <-. destruct I. }
  unfold route in H. destruct (q_method rq) eqn:M; try (now elim (ND _ H)); try (now elim (NA _ _ H)); try (now elim (NS _ _ H eq_refl)).
  - exfalso. destruct (validate_invite rq tag) as [[r0|]|]; [exact (NS _ _ H eq_refl)| |injection H as <- <-; destruct I]. destruct (dm_find _ _) as [d|]; [|injection H as <- <-; destruct I]. cbv zeta in H.
    destruct (se_trying g); [|now apply NA in H]. unfold sending, asking in H. destruct (obind _ _); [|injection H as <- <-; destruct I]. destruct ok; injection H as <- <-; cbn in I; intuition discriminate.
  - exfalso. destruct (dm_find _ _) as [[d|]|]; [now apply NA in H|injection H as <- <-; destruct I|injection H as <- <-; destruct I].
  - split; [reflexivity|]. unfold asking in H. destruct ok; [|injection H as <- <-; cbn in I; intuition discriminate]. split; [reflexivity|].
    destruct (extract_branch (q_headers rq)) as [b0|]; [|injection H as <- <-; cbn in I; intuition discriminate]. unfold sending in H. destruct (obind _ _) as [r0|] eqn:E; [|injection H as <- <-; cbn in I; intuition discriminate].
    injection H as <- <-. cbn in I. destruct I as [I | [I | []]]; [discriminate|]. injection I as <- <-. split; [reflexivity|].
    destruct (terminated_from_cancel rq tag) as [r1|] eqn:T; cbn [obind] in E; [|discriminate]. destruct (fill_code _ _ _ _ _ E) as (C1 & C2 & _). apply C143_filled in E. destruct E as (_ & _ & _ & O & V & _).
    assert (Y : forall n, In n ["Record-Route"; "From"; "Call-ID"; "CSeq"; "To"]%string -> values n (p_headers r0) = values n (p_headers r1)).
    { intros n Hn. apply O. intros k Hk. cbn in Hn, Hk. repeat (destruct Hn as [<- | Hn]; [repeat (destruct Hk as [<- | Hk]; [reflexivity|]); destruct Hk|]). destruct Hn. }
    unfold terminated_from_cancel, create_request_terminated in T. destruct (reject rq 487 _ tag) as [r2|] eqn:R; cbn [obind] in T; [|discriminate]. apply reject_inv in R; [|reflexivity]. destruct R as [_ R].
    assert (Mi : mirrors rq r2) by (rewrite R; apply shape_mirrors; seven_ok). assert (To : to_of false rq tag r2) by (rewrite R; apply shape_to; [seven_ok|reflexivity]).
    destruct Mi as (M1 & _ & M3 & M4 & M5). unfold first_value in M5.
    assert (Z : p_code r1 = 487 /\ p_reason r1 = lit "Request Terminated" /\ (forall n, In n ["Via"; "From"; "Call-ID"; "To"]%string -> values n (p_headers r1) = values n (p_headers r2))
      /\ forall v rest w ws, values "CSeq" (q_headers rq) = v :: rest -> split_ws v = w :: ws -> values "CSeq" (p_headers r1) = [w ++ lit " INVITE"]).
    { rewrite UacSendProofs.get_first in T. fold (values "CSeq" (q_headers rq)) in T. destruct (values "CSeq" (q_headers rq)) as [|v rest] eqn:CS.
      - injection T as <-. rewrite R. split; [reflexivity|]. split; [reflexivity|]. split; [reflexivity|]. intros; discriminate.
      - apply set_line_inv in T. destruct T as (hs & -> & T). cbn [p_code p_reason p_headers]. rewrite R at 1 2. split; [reflexivity|]. split; [reflexivity|].
        destruct T as [T | [T _]]; [|apply set_first_none in T; unfold values in M5; rewrite T in M5; discriminate]. split.
        + intros n Hn. apply (ProxyCoreProofs.hget_all_set_first_other (lit n) _ _ _ _ T). cbn in Hn. repeat (destruct Hn as [<- | Hn]; [reflexivity|]). destruct Hn.
        + intros v' rest' w ws [= <- <-] Hw. apply set_first_values in T. destruct T as [T _]. unfold values. rewrite T, Hw. unfold values in M5. rewrite M5. reflexivity. }
    destruct Z as (Z1 & Z2 & Z3 & Z4). rewrite C1, C2. split; [exact Z1|]. split; [exact Z2|].
    rewrite (Z3 "Via"%string ltac:(cbn; tauto)), M1 in V. split; [exact V|]. rewrite !Y by (cbn; tauto). rewrite !Z3 by (cbn; tauto). split; [exact M3|]. split; [exact M4|].
    split; [unfold to_of in *; rewrite Y by (cbn; tauto); rewrite Z3 by (cbn; tauto); exact To|]. exact Z4.
Qed.
Print Assumptions C142_cancel.
(** OPTIONS: the methods the application says it supports *)
Theorem C142_options : forall g s c a ch rq ok tag es e r, dispatch g s c a ch rq ok tag = (es, e) -> let_in g a rq -> q_method rq = MOptions -> In (Final r) es ->
  p_code r = 200 /\ values "Allow" (p_headers r) = [se_allow g] /\ values "Accept" (p_headers r) = [lit "application/sdp"] /\ replies false rq tag r.
Proof.
  intros g s c a ch rq ok tag es e r H L M I. assert (H' := H). rewrite (dispatch_route _ _ _ _ _ _ _ _ L) in H. unfold route in H. rewrite M in H. unfold sending in H.
  destruct (obind _ _) as [r'|] eqn:E; injection H as <- <-; [|destruct I]. destruct I as [I | []]. injection I as ->.
  assert (X : exists r0, obind (accept_options rq tag) (set_line (ln "Allow" (se_allow g))) = Ret r0 /\ auto_fill g s c r0 = Ret r).
  { destruct (accept_options rq tag) as [r1|]; cbn [obind] in E |- *; [|discriminate]. destruct (set_line _ r1) as [r2|]; cbn [obind] in E; [|discriminate]. now exists r2. }
  destruct X as (r0 & X1 & X2). apply options_inv in X1. subst r0. destruct (fill_code _ _ _ _ _ X2) as (C1 & _).
  assert (RP : replies false rq tag r) by (apply (fill_replies _ _ _ _ _ _ _ _ X2); [apply shape_mirrors; seven_ok|apply shape_to; [seven_ok|reflexivity]]).
  apply C143_filled in X2. destruct X2 as (_ & _ & _ & O & _ & _ & A & _). cbn [p_headers p_code] in *. split; [exact C1|]. split; [|split; [|exact RP]].
  - rewrite A. rewrite shape_extra by (cbn; intuition discriminate). reflexivity.
  - unfold values. rewrite O by (intros k Hk; cbn in Hk; repeat (destruct Hk as [<- | Hk]; [reflexivity|]); destruct Hk).
    apply (eq_trans (shape_extra rq (tagged_to rq 200 tag) (lit "0") _ "Accept" ltac:(cbn; intuition discriminate))). reflexivity.
Qed.
Print Assumptions C142_options.
(** the application is never asked about an OPTIONS request, although it can define a
    handler for it *)
Theorem C142_options_refuted : forall g s c a ch rq ok tag, q_method rq = MOptions -> ~ asked (fst (dispatch g s c a ch rq ok tag)).
Proof.
  intros g s c a ch rq ok tag M (m & d & I).
  assert (R : ~ In (Handler m d) (fst (route g s c rq ok tag))) by (unfold route; rewrite M; unfold sending; destruct (obind _ _); cbn; intuition discriminate).
  unfold dispatch in I. destruct (_ && _); [|contradiction]. destruct (verify_authentication a) as [[|]|]; [contradiction| |destruct I].
  destruct a, ch as [r|]; try (now destruct I); unfold sending in I; destruct (auto_fill g s c r); cbn in I; intuition discriminate.
Qed.
Print Assumptions C142_options_refuted.
Lemma set_line_ret : forall n v r, validate_header_name n = None -> validate_header_value v = None -> llen (p_headers r) < 200 ->
  exists r', set_line (n, v) r = Ret r' /\ llen (p_headers r') <= llen (p_headers r) + 1.
Proof.
  intros n v r Hn Hv L. unfold set_line. cbn [fst snd]. unfold hset_or_push, MAX_HEADERS. rewrite Hn, Hv. destruct (set_first n v (p_headers r)) as [hs|] eqn:E.
  - cbn [unwrap obind]. eexists. split; [reflexivity|]. cbn [p_headers]. apply set_first_values in E. lia.
  - replace (200 <=? llen (p_headers r)) with false by lia. cbn [unwrap obind]. eexists. split; [reflexivity|]. cbn [p_headers]. unfold llen. rewrite app_length. cbn. lia.
Qed.
Lemma value_clean : forall v, validate_header_value v = None -> clean v = true.
Proof.
  intros v H. apply validate_value_ok in H. destruct H as (_ & A & B & C). apply forallb_forall. intros x Hx. apply negb_true_iff.
  destruct (x =? 13) eqn:E1; [apply N.eqb_eq in E1; subst; contradiction|]. destruct (x =? 10) eqn:E2; [apply N.eqb_eq in E2; subst; contradiction|]. destruct (x =? 0) eqn:E3; [apply N.eqb_eq in E3; subst; contradiction|]. reflexivity.
Qed.
(** no crash for a request that leaves room *)
Theorem C142_no_crash_partial : forall g s c a ch rq ok tag d, let_in g a rq -> roomy rq tag -> validate_header_value (se_allow g) = None -> validate_header_value (se_agent g) = None ->
  dm_find (us_dialogs s) rq = Ret d -> (forall f, In f (values "From" (q_headers rq)) -> extract_tag f <> Panics) -> (forall v, In v (values "CSeq" (q_headers rq)) -> blen v <= 8000) -> snd (dispatch g s c a ch rq ok tag) <> Crashed.
Proof.
  intros g s c a ch rq ok tag d L R Va Vs D Ft Cl. rewrite (dispatch_route _ _ _ _ _ _ _ _ L). assert (R' := R). destruct R' as (Gd & To & _ & _).
  assert (SR : forall code reason, status_fits code reason -> exists r, obind (create_response rq code reason tag) (auto_fill g s c) = Ret r).
  { intros code reason F. rewrite create_ret by assumption. cbn [obind]. apply fill_ret; [|assumption..]. cbn [p_headers]. rewrite tagged_count. unfold llen. cbn. lia. }
  assert (F : forall code reason, 100 <= code <= 699 -> blen reason <= 256 -> forallb (fun x => negb (is_ascii_control x)) reason = true -> status_fits code reason).
  { intros code reason A B C. split; [exact A|]. split; [exact B|]. intros x Hx. rewrite forallb_forall in C. specialize (C x Hx). now apply negb_true_iff. }
  assert (AK : forall m x, snd (asking m x ok stop) <> Crashed) by (intros m x; unfold asking; destruct ok; discriminate).
  assert (ID : forall m, snd (in_dialog g s c m rq ok tag) <> Crashed).
  { intros m. unfold in_dialog. rewrite D. destruct d as [d|]; [apply AK|]. destruct (SR 481 (lit "Call/Transaction Does Not Exist")) as (r & ->); [apply F; [lia|vm_compute; discriminate|reflexivity]|]. discriminate. }
  assert (NI : snd (sending (obind (create_response rq 501 (lit "Not Implemented") tag) (auto_fill g s c)) Final stop) <> Crashed).
  { destruct (SR 501 (lit "Not Implemented")) as (r & ->); [apply F; [lia|vm_compute; discriminate|reflexivity]|]. discriminate. }
  unfold route. destruct (q_method rq) eqn:M; try apply ID; try apply AK; try exact NI.
  - assert (V : exists o, validate_invite rq tag = Ret o).
    { assert (B : exists r, create_bad_request rq tag = Ret r).
      { unfold create_bad_request, reject. rewrite create_ret by (assumption || (apply F; [lia|vm_compute; discriminate|reflexivity])). cbn [obind]. rewrite retag_ret by (constructor || reflexivity). eauto. }
      destruct B as (rb & B). unfold validate_invite. rewrite B. cbn [obind]. destruct (negb _); [eauto|]. destruct (existsb _ _); [eauto|]. unfold header_of. change (canonical_name (lit "From")) with (lit "From").
      rewrite UacSendProofs.get_first. unfold values in Ft. destruct (hget_all (lit "From") (q_headers rq)) as [|f rest]; [eauto|]. specialize (Ft f (or_introl eq_refl)). destruct (extract_tag f) as [[t|]|]; [eauto..|congruence]. }
    destruct V as (o & V). rewrite V. destruct o as [r|].
    + destruct (validate_spec rq tag _ M V) as [_ BR]. unfold create_bad_request in BR. apply reject_inv in BR; [|reflexivity]. destruct BR as [_ ->].
      destruct (fill_ret g s c (mkResp 400 (lit "Bad Request") (shape rq (tagged_to rq 400 tag) (lit "0") []) [])) as (r' & ->); [cbn [p_headers]; rewrite tagged_count; unfold llen; cbn; lia|assumption..|]. discriminate.
    + rewrite D. cbv zeta. destruct (se_trying g); [|apply AK]. unfold create_trying. destruct (SR 100 (lit "Trying")) as (r & ->); [apply F; [lia|vm_compute; discriminate|reflexivity]|]. cbn. apply AK.
  - rewrite D. destruct d; [apply AK|discriminate].
  - unfold asking. destruct ok; [|discriminate]. cbn [snd]. destruct (extract_branch (q_headers rq)) as [b|]; [|discriminate].
    assert (T : exists r, obind (terminated_from_cancel rq tag) (auto_fill g s c) = Ret r).
    { unfold terminated_from_cancel, create_request_terminated, reject. rewrite create_ret by (assumption || (apply F; [lia|vm_compute; discriminate|reflexivity])). cbn [obind]. rewrite retag_ret by (constructor || reflexivity). cbn [obind].
      set (r0 := mkResp _ _ _ _). assert (L0 : llen (p_headers r0) <= 192) by (unfold r0; cbn [p_headers]; rewrite tagged_count; unfold llen; cbn; lia).
      rewrite UacSendProofs.get_first. destruct (hget_all (lit "CSeq") (q_headers rq)) as [|v rest] eqn:CS; [cbn [obind]; apply fill_ret; [lia|assumption..]|].
      assert (GV : validate_header_value v = None) by (apply (good_value (q_headers rq) "CSeq"); [exact Gd|unfold values; rewrite CS; now left]).
      set (w := match split_ws v with w :: _ => w | [] => lit "0" end ++ lit " INVITE").
      assert (GW : validate_header_value w = None).
      { assert (B : blen v <= 8000) by (apply Cl; unfold values; rewrite CS; now left). unfold w. destruct (split_ws v) as [|x xs] eqn:SW; [reflexivity|].
        destruct (split_ws_parts v x) as [P1 P2]; [rewrite SW; now left|now apply value_clean|]. apply clean_value; [rewrite blen_app; change (blen (lit " INVITE")) with 7; lia|]. rewrite clean_app, P2. reflexivity. }
      destruct (set_line_ret (lit "CSeq") w r0 eq_refl GW ltac:(lia)) as (r1 & E1 & L1). unfold ln. fold w. rewrite E1. cbn [obind]. apply fill_ret; [lia|assumption..]. }
    destruct T as (r & ->). discriminate.
  - assert (T : exists r, obind (accept_options rq tag) (fun r => obind (set_line (ln "Allow" (se_allow g)) r) (auto_fill g s c)) = Ret r).
    { unfold accept_options, plain_ok. rewrite create_ret by (assumption || apply fits_200). cbn [obind]. set (r0 := mkResp _ _ _ _).
      assert (L0 : llen (p_headers r0) <= 192) by (unfold r0; cbn [p_headers]; rewrite tagged_count; unfold llen; cbn; lia).
      destruct (set_line_ret (lit "Allow") BASE_ALLOW r0 eq_refl eq_refl ltac:(lia)) as (r1 & E1 & L1). unfold ln. rewrite E1. cbn [obind].
      destruct (set_line_ret (lit "Accept") (lit "application/sdp") r1 eq_refl eq_refl ltac:(lia)) as (r2 & E2 & L2). rewrite E2. cbn [obind].
      destruct (set_line_ret (lit "Allow") (se_allow g) r2 eq_refl Va ltac:(lia)) as (r3 & E3 & L3). rewrite E3. cbn [obind]. apply fill_ret; [lia|assumption..]. }
    destruct T as (r & ->). discriminate.
Qed.
Print Assumptions C142_no_crash_partial.
Definition info_1 : req :=
  mkReq MInfo (SipU robert_here) [(lit "Via", lit "SIP/2.0/UDP a;branch=z9hG4bK1"); (lit "From", lit "<sip:alice@a.example>;tag=t1"); (lit "To", lit "<sip:robert@b.example>;tag=srv1");
    (lit "Call-ID", lit "c1@localhost"); (lit "CSeq", lit "3 INFO")] [].
Definition cancel_1 : req :=
  mkReq MCancel (SipU robert_here) [(lit "Via", lit "SIP/2.0/UDP a;branch=z9hG4bK1"); (lit "From", lit "<sip:alice@a.example>;tag=t1"); (lit "To", lit "<sip:robert@b.example>");
    (lit "Call-ID", lit "c1@localhost"); (lit "CSeq", lit "1 CANCEL")] [].
Example C142_example : let_in settings1 NoAuth invite_1 /\ startable invite_1
  /\ (exists r, dispatch settings1 server1 arrival1 NoAuth None invite_1 true (lit "x") = ([Provisional r; Handler "INVITE" None], Done) /\ p_code r = 100)
  /\ (exists r, dispatch settings1 server1 arrival1 NoAuth None info_1 true (lit "x") = ([Final r], Done) /\ p_code r = 481)
  /\ (exists r, dispatch settings1 server1 arrival1 NoAuth None options_1 true (lit "x") = ([Final r], Done) /\ p_code r = 200)
  /\ (exists b r, dispatch settings1 server1 arrival1 NoAuth None cancel_1 true (lit "x") = ([Handler "CANCEL" None; FinalOf b r], Done) /\ values "CSeq" (p_headers r) = [lit "1 INVITE"]).
Proof.
  split; [now left|]. split.
  { split; [intros n Hn; cbn [In] in Hn; repeat (destruct Hn as [<- | Hn]; [intros X; apply (f_equal (@List.length str)) in X; vm_compute in X; discriminate X|]); destruct Hn|].
    do 3 eexists. split; vm_compute; reflexivity. }
  split; [eexists; split; [vm_compute; reflexivity|reflexivity]|]. split; [eexists; split; [vm_compute; reflexivity|reflexivity]|]. split; [eexists; split; [vm_compute; reflexivity|reflexivity]|].
  do 2 eexists. split; [vm_compute; reflexivity|vm_compute; reflexivity].
Qed.
(** a CANCEL whose CSeq is one long word crashes the server once the application has
    taken it, although the request leaves room *)
Definition long_cancel : req :=
  mkReq MCancel (SipU robert_here) [(lit "Via", lit "SIP/2.0/UDP a;branch=z9hG4bK1"); (lit "CSeq", List.repeat 49 (N.to_nat 8190))] [].
Theorem C142_cancel_refuted : good_headers (q_headers long_cancel)
  /\ forall g s c a ch tag, let_in g a long_cancel -> dispatch g s c a ch long_cancel true tag = ([Handler "CANCEL" None], Crashed).
Proof.
  assert (B : blen (List.repeat 49 (N.to_nat 8190)) = 8190).
  { rewrite (NumFacts.blen_ascii (List.repeat 49 (N.to_nat 8190))).
    - unfold llen. rewrite repeat_length. vm_compute. reflexivity.
    - apply forallb_forall. intros c Hc. apply repeat_spec in Hc. subst c. reflexivity. }
  assert (W : SdpTextSpec.is_word (List.repeat 49 (N.to_nat 8190))).
  { split; [intros X; rewrite X in B; discriminate|]. intros c Hc. apply repeat_spec in Hc. subst c. reflexivity. }
  assert (C : clean (List.repeat 49 (N.to_nat 8190)) = true) by (apply forallb_forall; intros c Hc; apply repeat_spec in Hc; subst c; reflexivity).
  split.
  - split; [|unfold llen; cbn; lia]. constructor; [|constructor; [|constructor]].
    + destruct (header_new (lit "Via") (lit "SIP/2.0/UDP a;branch=z9hG4bK1")) as [h|] eqn:X; [|discriminate]. assert (X' := X). apply header_new_ok in X. destruct X as [-> X]. exact X.
    + destruct (header_new (lit "CSeq") (List.repeat 49 (N.to_nat 8190))) as [h|] eqn:X.
      * apply header_new_ok in X. destruct X as [-> X]. exact X.
      * unfold header_new in X. change (validate_header_name (lit "CSeq")) with (@None header_error) in X. cbv iota in X. rewrite clean_value in X; [discriminate|lia|exact C].
  - intros g s c a ch tag L. rewrite (dispatch_route _ _ _ _ _ _ _ _ L). unfold route. change (q_method long_cancel) with MCancel. cbv iota. unfold asking.
    assert (E : extract_branch (q_headers long_cancel) = Some (lit "z9hG4bK1")) by reflexivity. rewrite E. unfold sending.
    replace (obind (terminated_from_cancel long_cancel tag) (auto_fill g s c)) with (@Panics resp); [reflexivity|].
    unfold terminated_from_cancel. destruct (create_request_terminated long_cancel tag) as [r|]; [|reflexivity]. cbn [obind].
    replace (hget (lit "CSeq") (q_headers long_cancel)) with (Some (List.repeat 49 (N.to_nat 8190))) by reflexivity. cbv iota.
    pose proof (SdpTextProofs.split_ws_spaced [] _ W (fun x Hx => match Hx with end)) as S. cbn [flat_map] in S. rewrite app_nil_r in S. rewrite S. unfold set_line, ln. cbn [fst snd]. unfold hset_or_push.
    change (validate_header_name (lit "CSeq")) with (@None header_error). cbv iota.
    destruct (validate_header_value (List.repeat 49 (N.to_nat 8190) ++ lit " INVITE")) as [e|] eqn:V; [reflexivity|]. exfalso. apply validate_value_ok in V. destruct V as [V _]. rewrite blen_app, B in V. change (blen (lit " INVITE")) with 7 in V. lia.
Qed.
Print Assumptions C142_cancel_refuted.

(** ** C144: subscriptions and their notifications *)
(** what is agreed when a SUBSCRIBE is accepted: the answer says how long, and the
    subscription the server keeps has that length, the subscriber's tag and the tag
    the answer carries *)
Lemma subscribe_inv : forall s a rq exp tag s' r n, accept_subscribe s a rq exp tag = Ret (Some (s', r, n)) ->
  method_str (q_method rq) = lit "SUBSCRIBE" /\ authorised a = true
  /\ r = mkResp 200 (lit "OK") (shape rq (tagged_to rq 200 tag) (lit "0") [contact_line s; ln "Expires" (print_N (granted rq exp))]) []
  /\ exists ru, from_uri rq = Some ru /\ new_notifier rq r (us_local s) ru = Ret (Some n)
  /\ s' = match sm_insert (us_subs s) n with Some m => put_subs s m | None => s end.
Proof.
  intros s a rq exp tag s' r n H. unfold accept_subscribe in H. destruct (str_eqb (method_str (q_method rq)) (lit "SUBSCRIBE")) eqn:M; cbn [negb] in H; [|discriminate].
  apply str_eqb_spec in M. destruct (authorised a); cbn [negb] in H; [|discriminate]. unfold plain_ok in H.
  destruct (create_response rq 200 (lit "OK") tag) as [r0|] eqn:E0; cbn [obind] in H; [|discriminate]. apply create_inv in E0. destruct E0 as [_ ->].
  destruct (push_line (contact_line s) _) as [r1|] eqn:E1; cbn [obind] in H; [|discriminate]. apply push_line_inv in E1. cbn [p_headers p_code p_reason p_body] in E1. rewrite shape_snoc in E1. subst r1.
  destruct (push_line (ln "Expires" _) _) as [r2|] eqn:E2; cbn [obind] in H; [|discriminate]. apply push_line_inv in E2. cbn [p_headers p_code p_reason p_body] in E2. rewrite shape_snoc in E2. subst r2.
  destruct (retag tag _) as [r3|] eqn:E3; cbn [obind] in H; [|discriminate]. apply retag_same in E3; [|now repeat constructor|now left]. subst r3.
  destruct (from_uri rq) as [ru|]; [|discriminate]. destruct (new_notifier rq _ (us_local s) ru) as [[n0|]|] eqn:N; cbn [rbind] in H; [|discriminate..]. injection H as <- <- <-.
  split; [exact M|]. split; [reflexivity|]. split; [reflexivity|]. exists ru. split; [reflexivity|]. split; [exact N|reflexivity].
Qed.
Lemma header_get : forall hs n, canonical_name (lit n) = lit n -> header_of hs (lit n) = hget (lit n) hs.
Proof. intros hs n H. unfold header_of. rewrite H. now destruct (hget (lit n) hs). Qed.
Lemma notifier_inv : forall rq rs lu ru n, new_notifier rq rs lu ru = Ret (Some n) ->
  hget (lit "Call-ID") (q_headers rq) = Some (sb_call (nt_sub n))
  /\ (exists f, hget (lit "From") (q_headers rq) = Some f /\ extract_tag f = Ret (Some (sb_from (nt_sub n))))
  /\ (exists t, hget (lit "To") (p_headers rs) = Some t /\ extract_tag t = Ret (Some (sb_to (nt_sub n))))
  /\ header_of (q_headers rq) (lit "Event") = Some (sb_event (nt_sub n)) /\ extract_contact (p_headers rs) = Some (sb_contact (nt_sub n))
  /\ parse_cseq_number (q_headers rq) = Some (sb_lcseq (nt_sub n)) /\ sb_local (nt_sub n) = lu /\ sb_remote (nt_sub n) = ru
  /\ forall x, hget (lit "Expires") (p_headers rs) = Some x -> parse_uint u64_max x = Some (nt_expires n).
Proof.
  intros rq rs lu ru n H. unfold new_notifier in H. rewrite (header_get _ "Call-ID"), (header_get _ "From"), (header_get _ "To") in H by reflexivity. rewrite !(header_get _ "Expires") in H by reflexivity.
  destruct (hget (lit "Call-ID") (q_headers rq)) as [c|]; [|discriminate]. destruct (hget (lit "From") (q_headers rq)) as [f|]; [|discriminate].
  destruct (extract_tag f) as [[ft|]|] eqn:F; cbn [rbind] in H; [|discriminate..]. destruct (hget (lit "To") (p_headers rs)) as [t|]; [|discriminate].
  destruct (extract_tag t) as [[tt'|]|] eqn:T; cbn [rbind] in H; [|discriminate..].
  destruct (header_of (q_headers rq) (lit "Event")) as [ev|]; [|discriminate]. destruct (extract_contact (p_headers rs)) as [ct|]; [|discriminate].
  destruct (parse_cseq_number (q_headers rq)) as [k|]; [|discriminate]. destruct (is_some (validate_cseq k)); [discriminate|]. cbv zeta in H.
  assert (X : exists e, n = mkNtf (mkSub c ft tt' ev lu ru ct k) e /\ forall x, hget (lit "Expires") (p_headers rs) = Some x -> parse_uint u64_max x = Some e).
  { destruct (hget (lit "Expires") (p_headers rs)) as [x|].
    - destruct (parse_uint u64_max x) as [e|] eqn:P; [|discriminate]. injection H as <-. exists e. split; [reflexivity|]. intros y [= <-]. exact P.
    - destruct (hget (lit "Expires") (q_headers rq)) as [x|].
      + destruct (parse_uint u64_max x) as [e|]; [|discriminate]. injection H as <-. exists e. split; [reflexivity|discriminate].
      + injection H as <-. exists 3600. split; [reflexivity|discriminate]. }
  destruct X as (e & -> & X). cbn [nt_sub nt_expires sb_call sb_from sb_to sb_event sb_local sb_remote sb_contact sb_lcseq].
  split; [reflexivity|]. split; [now exists f|]. split; [now exists t|]. repeat (split; [reflexivity|]). exact X.
Qed.
Theorem C144_accepted : forall s a rq exp tag s' r n, accept_subscribe s a rq exp tag = Ret (Some (s', r, n)) -> (forall k, exp = Some k -> k <= 4294967295) ->
  p_code r = 200 /\ mirrors rq r /\ to_of false rq tag r
  /\ values "Expires" (p_headers r) = [print_N (nt_expires n)] /\ (forall k, exp = Some k -> nt_expires n = k)
  /\ values "Call-ID" (p_headers r) = [sb_call (nt_sub n)]
  /\ (exists f rest, values "From" (q_headers rq) = f :: rest /\ extract_tag f = Ret (Some (sb_from (nt_sub n))))
  /\ (exists t, values "To" (p_headers r) = [t] /\ extract_tag t = Ret (Some (sb_to (nt_sub n))))
  /\ header_of (q_headers rq) (lit "Event") = Some (sb_event (nt_sub n)).
Proof.
  intros s a rq exp tag s' r n H Hx. apply subscribe_inv in H. destruct H as (_ & _ & R & ru & _ & N & _). apply notifier_inv in N.
  destruct N as (N1 & (f & N2 & N2') & (t & N3 & N3') & N4 & _ & _ & _ & _ & N5).
  assert (G : granted rq exp <= 4294967295).
  { unfold granted. destruct exp as [k|]; [now apply Hx|]. destruct (hget (lit "Expires") (q_headers rq)) as [v|]; [|vm_compute; discriminate]. destruct (parse_uint u32_max v) as [k|] eqn:P; [|vm_compute; discriminate]. apply parse_uint_range in P. exact P. }
  assert (E : values "Expires" (p_headers r) = [print_N (granted rq exp)]) by (rewrite R; cbn [p_headers]; rewrite shape_extra by (cbn; intuition discriminate); reflexivity).
  assert (EE : nt_expires n = granted rq exp).
  { specialize (N5 (print_N (granted rq exp))). rewrite UacSendProofs.get_first in N5. unfold values in E. rewrite E in N5. specialize (N5 eq_refl). rewrite parse_uint_print in N5 by (unfold u64_max; lia). congruence. }
  assert (Mi : mirrors rq r) by (rewrite R; apply shape_mirrors; seven_ok). assert (To : to_of false rq tag r) by (rewrite R; apply shape_to; [seven_ok|reflexivity]).
  split; [now rewrite R|]. split; [exact Mi|]. split; [exact To|]. split; [now rewrite EE|]. split; [intros k ->; exact EE|].
  destruct Mi as (_ & _ & _ & M4 & _). split; [rewrite M4; unfold first_value, values; rewrite UacSendProofs.get_first in N1; destruct (hget_all _ _); [discriminate|]; now injection N1 as ->|].
  split; [rewrite UacSendProofs.get_first in N2; unfold values; destruct (hget_all (lit "From") (q_headers rq)) as [|f' rest]; [discriminate|]; injection N2 as ->; now exists f, rest|].
  split; [|exact N4]. exists t. split; [|exact N3']. unfold to_of in To. rewrite UacSendProofs.get_first in N3. fold (values "To" (p_headers r)) in N3.
  destruct (values "To" (q_headers rq)) as [|t0 l]; [rewrite To in N3; discriminate|]. destruct To as (t' & To & _). rewrite To in N3 |- *. injection N3 as ->. reflexivity.
Qed.
Print Assumptions C144_accepted.
(** one notification *)
Definition terminates (code : N) : Prop := 200 <= code.
Theorem C144_notify : forall s n code reason branch n' q, notify_sipfrag s n code reason branch = Ret (Some (n', q)) ->
  q_method q = MNotify /\ q_uri q = SipU (sb_contact (nt_sub n))
  /\ values "From" (q_headers q) = [lit "<" ++ u_raw (us_local s) ++ lit ">;tag=" ++ sb_to (nt_sub n)]
  /\ values "To" (q_headers q) = [lit "<" ++ u_raw (sb_remote (nt_sub n)) ++ lit ">;tag=" ++ sb_from (nt_sub n)]
  /\ values "Call-ID" (q_headers q) = [sb_call (nt_sub n)] /\ values "Event" (q_headers q) = [sb_event (nt_sub n)]
  /\ values "CSeq" (q_headers q) = [print_N (sb_lcseq (nt_sub n) + 1) ++ lit " NOTIFY"]
  /\ values "Content-Length" (q_headers q) = [print_N (llen (q_body q))] /\ values "Max-Forwards" (q_headers q) = [lit "70"]
  /\ (exists st, values "Subscription-State" (q_headers q) = [st]
       /\ (terminates code -> exists why, st = lit "terminated;reason=" ++ why) /\ (~ terminates code -> st = lit "active"))
  /\ q_body q = utf8 (lit "SIP/2.0 " ++ print_N code ++ lit " " ++ reason ++ [13; 10])
  /\ nt_expires n' = nt_expires n /\ sb_lcseq (nt_sub n') = sb_lcseq (nt_sub n) + 1
  /\ sb_call (nt_sub n') = sb_call (nt_sub n) /\ sb_from (nt_sub n') = sb_from (nt_sub n) /\ sb_to (nt_sub n') = sb_to (nt_sub n)
  /\ sb_event (nt_sub n') = sb_event (nt_sub n) /\ sb_remote (nt_sub n') = sb_remote (nt_sub n) /\ sb_contact (nt_sub n') = sb_contact (nt_sub n).
Proof.
  intros s n code reason branch n' q H. unfold notify_sipfrag in H. destruct (reason_ok reason); cbn [negb] in H; [|discriminate]. cbv zeta in H. destruct (u32_max <=? _); [discriminate|].
  destruct (assemble _ _ _ _) as [q0|] eqn:A; cbn [obind] in H; [|discriminate]. injection H as <- <-. apply assemble_eq in A. subst q0. cbn [q_method q_uri q_headers q_body bump_sub nt_sub nt_expires sb_call sb_from sb_to sb_event sb_local sb_remote sb_contact sb_lcseq].
  assert (TG : forall u t, tagged u t = lit "<" ++ u_raw u ++ lit ">;tag=" ++ t) by (intros; unfold tagged, angle; rewrite <- !app_assoc; reflexivity).
  split; [reflexivity|]. split; [reflexivity|]. split; [rewrite <- TG; reflexivity|]. split; [rewrite <- TG; reflexivity|]. split; [reflexivity|]. split; [reflexivity|]. split; [reflexivity|].
  split; [change (values "Content-Length" _) with [print_N (blen (lit "SIP/2.0 " ++ print_N code ++ lit " " ++ reason ++ [13; 10]))]; now rewrite llen_utf8|]. split; [reflexivity|].
  split; [exists (sipfrag_state code); split; [reflexivity|]|repeat (split; [reflexivity|]); reflexivity].
  unfold sipfrag_state, terminates, in_range. split.
  - intros T. destruct ((200 <=? code) && (code <=? 299)) eqn:R; [now exists (lit "noresource")|]. replace (300 <=? code) with true by lia. now exists (lit "rejected").
  - intros T. replace ((200 <=? code) && (code <=? 299)) with false by lia. replace (300 <=? code) with false by lia. reflexivity.
Qed.
Print Assumptions C144_notify.
(** the notifications of one subscription, one after the other *)
Fixpoint notifications (s : uas) (n : notifier) (l : list (N * str * str)) : option (list req) :=
  match l with
  | [] => Some []
  | (code, reason, branch) :: rest =>
      match notify_sipfrag s n code reason branch with
      | Panics => None
      | Ret None => notifications s n rest
      | Ret (Some (n', q)) => match notifications s n' rest with Some qs => Some (q :: qs) | None => None end
      end
  end.
Theorem C144_numbers : forall l s n qs, notifications s n l = Some qs -> forall i q, nth_error qs i = Some q ->
  values "CSeq" (q_headers q) = [print_N (sb_lcseq (nt_sub n) + 1 + N.of_nat i) ++ lit " NOTIFY"] /\ values "Call-ID" (q_headers q) = [sb_call (nt_sub n)].
Proof.
  induction l as [|[[code reason] branch] l IH]; intros s n qs H i q Q; cbn [notifications] in H.
  - injection H as <-. now destruct i.
  - destruct (notify_sipfrag s n code reason branch) as [[[n' q0]|]|] eqn:E; [|now apply (IH s n qs)|discriminate].
    destruct (notifications s n' l) as [qs'|] eqn:R; [|discriminate]. injection H as <-. apply C144_notify in E. destruct E as (_ & _ & _ & _ & E5 & _ & E7 & _ & _ & _ & _ & _ & E13 & E14 & _).
    destruct i as [|i].
    + injection Q as <-. rewrite N.add_0_r. split; [exact E7|exact E5].
    + destruct (IH s n' qs' R i q Q) as [A B]. rewrite A, B, E13, E14. split; [|reflexivity]. do 3 f_equal. lia.
Qed.
Print Assumptions C144_numbers.
(** but notifications are addressed to the server itself and not to the subscriber:
    the target is taken from the answer, whose Contact is the server's *)
Theorem C144_target_refuted : forall s a rq exp tag s' r n, callee s -> accept_subscribe s a rq exp tag = Ret (Some (s', r, n)) ->
  sb_contact (nt_sub n) = us_contact s
  /\ forall code reason branch n' q, notify_sipfrag s n code reason branch = Ret (Some (n', q)) -> q_uri q = SipU (us_contact s).
Proof.
  intros s a rq exp tag s' r n [_ C] H. apply subscribe_inv in H. destruct H as (_ & _ & R & ru & _ & N & _). apply notifier_inv in N. destruct N as (_ & _ & _ & _ & N & _).
  assert (X : sb_contact (nt_sub n) = us_contact s).
  { unfold extract_contact in N. rewrite (value_of _ "Contact" (lit "<" ++ u_raw (us_contact s) ++ lit ">") []) in N.
    - rewrite (read_contact _ (us_contact s) C eq_refl) in N. congruence.
    - rewrite R. cbn [p_headers]. rewrite shape_extra by (cbn; intuition discriminate). reflexivity. }
  split; [exact X|]. intros code reason branch n' q Q. apply C144_notify in Q. destruct Q as (_ & Q & _). now rewrite Q, X.
Qed.
Print Assumptions C144_target_refuted.
Definition subscribe_1 : req :=
  mkReq MSubscribe (SipU robert_here) [(lit "Via", lit "SIP/2.0/UDP a;branch=z9hG4bK1"); (lit "From", lit "<sip:alice@a.example>;tag=t1"); (lit "To", lit "<sip:robert@b.example>");
    (lit "Call-ID", lit "c1@localhost"); (lit "CSeq", lit "3 SUBSCRIBE"); (lit "Event", lit "refer"); (lit "Expires", lit "60"); (lit "Contact", lit "<sip:alice@192.0.2.1>")] [].
Example C144_example : exists s r n qs, accept_subscribe server1 NoAuth subscribe_1 None (lit "x") = Ret (Some (s, r, n)) /\ nt_expires n = 60
  /\ notifications server1 n [(100, lit "Trying", lit "b1"); (200, lit "OK", lit "b2")] = Some qs
  /\ map (fun q => (values "CSeq" (q_headers q), values "Subscription-State" (q_headers q))) qs
     = [([lit "4 NOTIFY"], [lit "active"]); ([lit "5 NOTIFY"], [lit "terminated;reason=noresource"])]
  /\ map q_uri qs = [SipU robert_here; SipU robert_here].
Proof. do 4 eexists. split; [vm_compute; reflexivity|]. split; [vm_compute; reflexivity|]. split; [vm_compute; reflexivity|]. split; vm_compute; reflexivity. Qed.
