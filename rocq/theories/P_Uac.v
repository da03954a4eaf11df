(** Properties C119 to C123: the requests a user agent client builds. *)
From Coq Require Import Arith NArith Bool String List Lia ZifyBool ZifyN ZifyNat.
Import ListNotations.
From Verif Require Import Base BaseFacts NumFacts Headers HeadersProofs Method Text TextFacts Uri Msg Message AnyUri Dialog Auth Uac UacSend UacSpec UacProofs UacReads UacRegister.
Open Scope N_scope.
Open Scope list_scope.

(** an example to try the statements on *)
Definition at_uri (s : string) : sip_uri := match parse_uri (lit s) with Some u => u | None => mkUri [] false None [] None [] [] end.
Definition alice : sip_uri := at_uri "sip:alice@a.example".
Definition alice_here : sip_uri := at_uri "sip:alice@192.0.2.7:5060".
Definition robert : sip_uri := at_uri "sip:robert@b.example".
Definition robert_here : sip_uri := at_uri "sip:robert@192.0.2.9".
Definition client1 : uac := uac_new alice alice_here (lit "siphon/1").
Definition fresh1 : fresh := mkFresh (lit "b1") (lit "t1") (lit "c1").
Definition fresh2 : fresh := mkFresh (lit "b2") (lit "t2") (lit "c2").
Definition dialog1 : dialog :=
  mkD (mkId (lit "c9@localhost") (lit "lt") (lit "rt")) Confirmed robert_here [] 1 0 None alice robert false None None true.

(** ** C119: every request is complete and says what was asked for *)
Theorem C119_complete : forall u f c u' q, perform u f c = (u', Ret (Some q)) ->
  wellformed (ua_agent u) q
  /\ method_str (q_method q) = lit (method_wanted c)
  /\ match body_wanted c with
     | Some (ct, b) => q_body q = utf8 b /\ once q "Content-Type" ct
     | None => q_body q = [] /\ never q "Content-Type"
     end
  /\ (forall n v, In (n, v) (headers_wanted u c) -> once q n v)
  /\ match contact_wanted u c with Some v => once q "Contact" v | None => never q "Contact" end.
Proof. exact call_good. Qed.
Print Assumptions C119_complete.
Example C119_example : exists q, perform client1 fresh1 (CInvite robert (Some (lit "v=0")) None) = (client1, Ret (Some q)) /\ q_body q = [118; 61; 48].
Proof. eexists. split; [vm_compute; reflexivity|reflexivity]. Qed.
(** with extra headers the caller can make a request that is not well formed *)
Theorem C119_extra_refuted : exists u f t ct b extra q,
  mk_message_with u f t ct b extra = Ret q /\ ~ wellformed (ua_agent u) q.
Proof.
  exists client1, fresh1, robert, (lit "text/plain"), (lit "hello"), [(lit "Content-Length", lit "0")]. eexists. split; [vm_compute; reflexivity|].
  intros (_ & _ & _ & _ & _ & _ & _ & H). vm_compute in H. discriminate.
Qed.
Print Assumptions C119_extra_refuted.

(** ** C120: every request is sent to, and names, the right party *)
Theorem C120_outside : forall u f c u' q t, perform u f c = (u', Ret (Some q)) -> target_outside c = Some t -> stands_alone u f c t q.
Proof. exact call_alone. Qed.
Print Assumptions C120_outside.
Theorem C120_inside : forall u f c u' q d, perform u f c = (u', Ret (Some q)) -> dialog_inside c = Some d -> belongs_to d q.
Proof. exact call_inside. Qed.
Print Assumptions C120_inside.
Theorem C120_notify : forall u f c u' q s, perform u f c = (u', Ret (Some q)) -> subscription_of c = Some s -> notifies s q.
Proof. exact call_notifies. Qed.
Print Assumptions C120_notify.
(** the From of a BYE names the dialog's own address *)
Theorem C120_bye : forall u f c u' q d, perform u f c = (u', Ret (Some q)) -> (c = CBye d \/ exists r, c = CByeReason d r) ->
  once q "From" (lit "<" ++ u_raw (d_luri d) ++ lit ">;tag=" ++ di_local (d_id d)).
Proof. intros u f c u' q d H K. pose proof (bye_from u f c u' q d H K) as E. unfold tagged, angle in E. now rewrite <- !app_assoc in E. Qed.
Print Assumptions C120_bye.
(** that of other requests does not, when the dialog was made under another address:
    here an INVITE sent with an overriding address, and then a re-INVITE *)
Lemma suffix_of : forall (v p x : str), v = p ++ x -> firstn (List.length x) (rev v) = rev x.
Proof. intros v p x ->. rewrite rev_app_distr, <- (rev_length x). rewrite firstn_app, Nat.sub_diag, firstn_all. cbn [firstn]. now rewrite app_nil_r. Qed.
Definition as_robert : dialog := mkD (mkId (lit "c9@localhost") (lit "lt") (lit "rt")) Confirmed robert_here [] 1 0 None robert_here robert false None None true.
Theorem C120_from_refuted : forall c, In c [CReinvite as_robert None; CUpdate as_robert None; CInfo as_robert (lit "a/b") []; CRefer as_robert robert] ->
  exists q, perform client1 fresh1 c = (client1, Ret (Some q))
  /\ forall v, once q "From" v -> ~ names_tag v (d_luri as_robert) (di_local (d_id as_robert)).
Proof.
  intros c K. repeat (destruct K as [<-|K]; [eexists; split; [vm_compute; reflexivity|intros v H [p E]; vm_compute in H; injection H as <-; apply suffix_of in E; vm_compute in E; discriminate]|]). destruct K.
Qed.
Print Assumptions C120_from_refuted.
Example C120_example : exists q1 q2, perform client1 fresh1 (CInvite robert None None) = (client1, Ret (Some q1))
  /\ perform client1 fresh2 (CRefer dialog1 alice) = (client1, Ret (Some q2)) /\ q_uri q1 <> q_uri q2.
Proof. eexists. eexists. split; [vm_compute; reflexivity|]. split; [vm_compute; reflexivity|]. vm_compute. discriminate. Qed.

(** ** C121: no builder panics on reasonable input *)
Theorem C121_no_panic_partial : forall u f c, plain_client u -> plain_fresh f -> plain_call c -> exists o, snd (perform u f c) = Ret o.
Proof. exact plain_ok. Qed.
Print Assumptions C121_no_panic_partial.
Theorem C121_no_panic_refuted : exists u f t e, plain_client u /\ plain_fresh f /\ plain_uri_text t /\ snd (perform u f (CSubscribe t e 60)) = Panics.
Proof.
  exists client1, fresh1, robert, (lit "pres" ++ [13; 10]).
  assert (P : forall s mx, blen s <= mx -> forallb (fun c => negb ((c =? 13) || (c =? 10) || (c =? 0))) s = true -> plain_text mx s).
  { intros s mx H1 H2. split; [exact H1|]. intros c Hc. rewrite forallb_forall in H2. specialize (H2 c Hc). lia. }
  split; [|split; [|split]].
  - unfold plain_client, plain_uri_text, plain_opt. repeat match goal with |- plain_text _ _ => apply P; [vm_compute; discriminate|vm_compute; reflexivity] | |- _ /\ _ => split end; cbn; try exact I; try (intros ? ? []). intros ? K. discriminate K.
  - unfold plain_fresh. repeat split; try (vm_compute; discriminate); vm_compute in H; intuition (subst; try discriminate).
  - apply P; [vm_compute; discriminate|vm_compute; reflexivity].
  - vm_compute. reflexivity.
Qed.
Print Assumptions C121_no_panic_refuted.
Example C121_example : plain_client client1 /\ plain_fresh fresh1 /\ plain_call (CRefer dialog1 alice).
Proof.
  assert (P : forall s mx, blen s <= mx -> forallb (fun c => negb ((c =? 13) || (c =? 10) || (c =? 0))) s = true -> plain_text mx s).
  { intros s mx H1 H2. split; [exact H1|]. intros c Hc. rewrite forallb_forall in H2. specialize (H2 c Hc). lia. }
  unfold plain_client, plain_fresh, plain_call, plain_dialog, plain_uri_text, plain_opt.
  repeat match goal with |- plain_text _ _ => apply P; [vm_compute; discriminate|vm_compute; reflexivity] | |- _ /\ _ => split end; cbn; try exact I; try (intros ? ? []). intros ? K. discriminate K.
Qed.

(** ** C122: the From of a request names the sender to whoever reads it *)
Theorem C122_from_partial : forall u f c u' q, perform u f c = (u', Ret (Some q)) -> (as_given c = false \/ ua_display u = None) ->
  match ua_display u with Some d => short_text 100 d = true | None => True end ->
  addressable (fst (speaker u f c)) -> tag_text (snd (speaker u f c)) ->
  exists v, once q "From" v /\ reads_as v (any_without_headers (ASip (fst (speaker u f c)))) (snd (speaker u f c)).
Proof. exact call_reads. Qed.
Print Assumptions C122_from_partial.
(** the condition on the display name is what the setter demands *)
Theorem C122_display : forall u n u', set_display u n = Some u' -> ua_display u' = Some n /\ short_text 100 n = true.
Proof. intros u n u' H. unfold set_display in H. destruct (short_text MAX_DISPLAY_NAME n) eqn:E; [|discriminate]. injection H as <-. split; [reflexivity|exact E]. Qed.
Print Assumptions C122_display.
Definition trick : str := lit "x"" <sip:mallory@evil.example>;a=""".
Theorem C122_inside_refuted : exists u1 u f d q v na, set_display u1 trick = Some u
  /\ perform u f (CReinvite d None) = (u, Ret (Some q)) /\ once q "From" v /\ parse_name_addr v = Some na
  /\ ua_local u = alice /\ d_luri d = alice /\ any_text (na_uri na) = lit "sip:mallory@evil.example".
Proof.
  exists client1. eexists. exists fresh1, dialog1. do 3 eexists. split; [vm_compute; reflexivity|]. split; [vm_compute; reflexivity|]. split; [vm_compute; reflexivity|]. split; [vm_compute; reflexivity|]. repeat split.
Qed.
Print Assumptions C122_inside_refuted.
Definition client2 : uac := mkUac alice alice_here (Some trick) None (lit "siphon/1") [] [] [].
Example C122_example : exists q, perform client2 fresh1 (CInvite robert None None) = (client2, Ret (Some q)) /\ set_display client1 trick = Some client2
  /\ addressable (fst (speaker client2 fresh1 (CInvite robert None None))) /\ tag_text (snd (speaker client2 fresh1 (CInvite robert None None))).
Proof.
  eexists. split; [vm_compute; reflexivity|]. split; [vm_compute; reflexivity|]. split.
  - split; [vm_compute; reflexivity|]. assert (H : forallb (fun c => negb (c =? 34) && negb (c =? 62) && negb (is_ws c)) (u_raw alice) = true) by (vm_compute; reflexivity).
    cbn [speaker sender fst]. change (match ua_from client2 with Some x => x | None => ua_local client2 end) with alice. intros c Hc. rewrite forallb_forall in H. specialize (H c Hc). apply andb_prop in H as [H W]. apply negb_true_iff in W. split; [lia|]. split; [lia|exact W].
  - split; [discriminate|]. split; [vm_compute; discriminate|]. cbn [speaker snd]. assert (H : forallb is_alnum (fr_tag fresh1) = true) by reflexivity. now apply forallb_forall.
Qed.

(** ** C123: the REGISTERs to one registrar form one series *)
Theorem C123_order : forall u cs u' os i j fi fj ri rj ei ej qi qj cl k l,
  unused u -> perform_all u cs = (u', os) -> NoDup (map (fun x => fr_call (fst x)) cs) -> llen cs < 4294967295 -> (i < j)%nat ->
  nth_error cs i = Some (fi, CRegister ri ei) -> nth_error os i = Some (Ret (Some qi)) ->
  nth_error cs j = Some (fj, CRegister rj ej) -> nth_error os j = Some (Ret (Some qj)) ->
  once qi "Call-ID" cl -> once qj "Call-ID" cl ->
  once qi "CSeq" (print_N k ++ lit " REGISTER") -> once qj "CSeq" (print_N l ++ lit " REGISTER") -> k < l.
Proof. exact order. Qed.
Print Assumptions C123_order.
Theorem C123_series : forall u cs u' os i j fi fj ri rj ei ej qi qj R cl v,
  unused u -> perform_all u cs = (u', os) -> NoDup (map (fun x => fr_call (fst x)) cs) -> llen cs < 4294967295 -> (i < j)%nat ->
  nth_error cs i = Some (fi, CRegister ri ei) -> nth_error os i = Some (Ret (Some qi)) ->
  nth_error cs j = Some (fj, CRegister rj ej) -> nth_error os j = Some (Ret (Some qj)) -> u_raw ri = u_raw rj ->
  (forall f r e, In (f, CRegister r e) cs -> In (u_raw r) R) -> llen R <= 100 ->
  once qi "Call-ID" cl -> once qi "From" v -> once qj "Call-ID" cl /\ once qj "From" v.
Proof. exact series. Qed.
Print Assumptions C123_series.
Definition history1 : list (fresh * call) :=
  [(fresh1, CRegister robert 60); (fresh2, COptions robert); (mkFresh (lit "b3") (lit "t3") (lit "c3"), CRegister alice 60);
   (mkFresh (lit "b4") (lit "t4") (lit "c4"), CRegister robert 0)].
Example C123_example : exists u' os q0 q3, perform_all client1 history1 = (u', os) /\ unused client1 /\ NoDup (map (fun x => fr_call (fst x)) history1)
  /\ nth_error os 0 = Some (Ret (Some q0)) /\ nth_error os 3 = Some (Ret (Some q3)) /\ once q0 "CSeq" (lit "1 REGISTER") /\ once q3 "CSeq" (lit "2 REGISTER")
  /\ once q0 "Call-ID" (lit "c1@localhost") /\ once q3 "Call-ID" (lit "c1@localhost").
Proof.
  do 4 eexists. split; [vm_compute; reflexivity|]. split; [repeat split|]. split; [|repeat (split; [reflexivity|]); reflexivity].
  cbn [map fst history1 fr_call fresh1 fresh2]. repeat constructor; cbn [In]; intros K; repeat (destruct K as [K|K]; [discriminate K|]); exact K.
Qed.
(** the 101st registrar is not remembered *)
Definition registrar_no (n : nat) : sip_uri := mkUri (lit "sip:" ++ print_N (N.of_nat n)) false None (print_N (N.of_nat n)) None [] [].
Definition history2 : list (fresh * call) :=
  map (fun n => (mkFresh [] [] (print_N (N.of_nat n)), CRegister (registrar_no (Nat.min n 100)) 60)) (seq 0 102).
Theorem C123_many_refuted : exists q q',
  nth_error (snd (perform_all client1 history2)) 100 = Some (Ret (Some q)) /\ nth_error (snd (perform_all client1 history2)) 101 = Some (Ret (Some q'))
  /\ q_uri q = q_uri q' /\ once q "Call-ID" (lit "100@localhost") /\ once q' "Call-ID" (lit "101@localhost").
Proof. do 2 eexists. split; [vm_compute; reflexivity|]. split; [vm_compute; reflexivity|]. repeat (split; [reflexivity|]). reflexivity. Qed.
Print Assumptions C123_many_refuted.
