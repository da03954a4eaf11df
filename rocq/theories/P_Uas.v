(** Properties C135 to C139: the user agent server. *)
From Coq Require Import Arith NArith Bool String List Lia ZifyBool ZifyN ZifyNat.
Import ListNotations.
From Verif Require Import Base BaseFacts NumFacts Headers HeadersProofs Method Text TextFacts Uri Msg Message MessageProofs Dialog DialogSpec DialogProofs P_Dialog Via TxManager Dns Uac UacSpec UacProofs UacReads P_Uac Uas UasServe UasSpec UasProofs UasCalls UasTalk.
Open Scope N_scope.
Open Scope list_scope.

(** ** C135: a response mirrors its request *)
Theorem C135_answers : forall s rq tag y r, make s rq tag y = Ret (Some r) -> (forall c t, y = YReject c t -> c <> 100) -> answers s rq tag y r.
Proof. exact reply_answers. Qed.
Print Assumptions C135_answers.
(** when a response cannot be built *)
Theorem C135_panics_exactly : forall rq code reason tag, good_headers (q_headers rq) -> tag_text tag ->
  (create_response rq code reason tag = Panics <-> ~ status_fits code reason \/ 200 <= taken_over rq \/ (code <> 100 /\ to_overflows rq tag)).
Proof. exact create_exact. Qed.
Print Assumptions C135_panics_exactly.
(** no panic for requests that leave some room *)
Theorem C135_no_panic_partial : forall s rq tag y, roomy rq tag -> plain_uri_text (us_contact s) -> fits y -> exists r, make s rq tag y = Ret (Some r).
Proof. exact make_ret. Qed.
Print Assumptions C135_no_panic_partial.
Definition server1 : uas := uas_new robert robert_here.
Definition invite_1 : req := match mk_invite client1 fresh1 robert (Some (lit "v=0")) None with Ret q => q | Panics => mkReq MInvite (OtherU []) [] [] end.
Lemma alice_party : party alice.
Proof. split; [vm_compute; reflexivity|]. split; [vm_compute; discriminate|]. split; [|split; [|vm_compute; discriminate]].
  - intros c Hc. vm_compute in Hc. repeat (destruct Hc as [<- | Hc]; [repeat split; discriminate|]). destruct Hc.
  - apply contains_not. vm_compute. reflexivity.
Qed.
Lemma alice_here_party : party alice_here.
Proof. split; [vm_compute; reflexivity|]. split; [vm_compute; discriminate|]. split; [|split; [|vm_compute; discriminate]].
  - intros c Hc. vm_compute in Hc. repeat (destruct Hc as [<- | Hc]; [repeat split; discriminate|]). destruct Hc.
  - apply contains_not. vm_compute. reflexivity.
Qed.
Lemma robert_party : party robert.
Proof. split; [vm_compute; reflexivity|]. split; [vm_compute; discriminate|]. split; [|split; [|vm_compute; discriminate]].
  - intros c Hc. vm_compute in Hc. repeat (destruct Hc as [<- | Hc]; [repeat split; discriminate|]). destruct Hc.
  - apply contains_not. vm_compute. reflexivity.
Qed.
Lemma robert_here_party : party robert_here.
Proof. split; [vm_compute; reflexivity|]. split; [vm_compute; discriminate|]. split; [|split; [|vm_compute; discriminate]].
  - intros c Hc. vm_compute in Hc. repeat (destruct Hc as [<- | Hc]; [repeat split; discriminate|]). destruct Hc.
  - apply contains_not. vm_compute. reflexivity.
Qed.
Lemma tag_is : forall t, (t <> []) -> forallb is_alnum t = true -> blen t <= 256 -> tag_text t.
Proof. intros t H A L. split; [exact H|]. split; [exact L|]. now apply forallb_forall. Qed.
Lemma client1_caller : caller client1.
Proof.
  split; [exact alice_party|]. split; [exact alice_here_party|]. split; [discriminate|]. split; [discriminate|]. split; [vm_compute; discriminate|].
  intros c Hc. vm_compute in Hc. repeat (destruct Hc as [<- | Hc]; [repeat split; discriminate|]). destruct Hc.
Qed.
Lemma server1_callee : callee server1.
Proof. split; [exact robert_party|exact robert_here_party]. Qed.
Lemma tag_srv : tag_text (lit "srv1").
Proof. apply tag_is; [discriminate|reflexivity|vm_compute; discriminate]. Qed.
Lemma tag_t1 : tag_text (fr_tag fresh1).
Proof. apply tag_is; [discriminate|reflexivity|vm_compute; discriminate]. Qed.
Lemma invite_1_made : mk_invite client1 fresh1 robert (Some (lit "v=0")) None = Ret invite_1.
Proof. vm_compute. reflexivity. Qed.
Lemma invite_1_calls : exists p, calls invite_1 p alice robert alice_here (lit "c1@localhost") (lit "t1").
Proof. exact (invite_calls client1 fresh1 robert _ None invite_1 invite_1_made client1_caller robert_party (fun x H => ltac:(discriminate H)) tag_t1). Qed.
Example C135_example : roomy invite_1 (lit "srv1") /\ plain_uri_text (us_contact server1) /\ fits (YOk (Some (lit "v=1"))) /\ fits (YReject 486 (lit "Busy")).
Proof.
  destruct invite_1_calls as (p & K). split; [exact (calls_roomy _ _ _ _ _ _ _ _ K tag_srv)|]. split; [apply party_plain, robert_here_party|]. split; [vm_compute; discriminate|].
  split; [now apply status_fits_spec|discriminate].
Qed.
(** 200 short Via lines are let in by the parser, and every answer to them panics *)
Definition via_bomb : list N := lit "OPTIONS sip:a@b SIP/2.0" ++ [13; 10] ++ List.concat (List.repeat (lit "v:x" ++ [13; 10]) 200) ++ [13; 10].
Theorem C135_vias_refuted : exists bytes q, parse_request bytes = Some q /\ forall code reason tag, create_response q code reason tag = Panics.
Proof.
  exists via_bomb. set (q := mkReq MOptions (SipU (at_uri "sip:a@b")) (List.repeat (lit "Via", lit "x") 200) []).
  exists q. split; [vm_compute; reflexivity|]. intros code reason tag. unfold create_response. rewrite copied_shape. rewrite push_all_full; [reflexivity|..].
  - apply shape_lines; [|discriminate|reflexivity|constructor]. split; [|vm_compute; discriminate]. apply Forall_forall. intros h Hh. apply repeat_spec in Hh. subst h.
    destruct (header_new (lit "Via") (lit "x")) as [h|] eqn:E; [|discriminate]. assert (E' := E). apply header_new_ok in E. destruct E as [-> E]. exact E.
  - vm_compute. discriminate.
  - vm_compute. reflexivity.
Qed.
Print Assumptions C135_vias_refuted.
(** a To of more than 8181 bytes is let in as well; only a 100 can answer it (the
    server's tags have several characters) *)
Definition long_to : str := lit "<sip:b@h>" ++ List.repeat 120 (N.to_nat 8181).
Theorem C135_to_refuted : exists q, good_headers (q_headers q) /\ values "To" (q_headers q) = [long_to] /\ llen long_to = 8190
  /\ (forall code reason tag, code <> 100 -> tag_text tag -> create_response q code reason tag = Panics)
  /\ exists r, create_response q 100 (lit "Trying") (lit "t") = Ret r.
Proof.
  set (q := mkReq MBye (SipU robert) [(lit "To", long_to)] []). exists q.
  assert (L : blen long_to = 8190).
  { unfold long_to. rewrite blen_app. rewrite (blen_ascii (List.repeat 120 (N.to_nat 8181))).
    - unfold llen. rewrite repeat_length. vm_compute. reflexivity.
    - apply forallb_forall. intros c Hc. apply repeat_spec in Hc. subst c. reflexivity. }
  assert (C : clean long_to = true).
  { unfold long_to. rewrite clean_app. apply andb_true_intro. split; [reflexivity|]. apply forallb_forall. intros c Hc. apply repeat_spec in Hc. subst c. reflexivity. }
  assert (V : validate_header_value long_to = None) by (apply clean_value; [lia|exact C]).
  assert (G : good_headers (q_headers q)).
  { split; [|unfold llen; cbn; lia]. constructor; [|constructor]. destruct (header_new (lit "To") long_to) as [h|] eqn:E.
    - apply header_new_ok in E. destruct E as [-> E]. exact E.
    - unfold header_new in E. change (validate_header_name (lit "To")) with (@None header_error) in E. cbv iota in E. rewrite V in E. discriminate. }
  assert (N : ~ occurs (lit ";tag=") long_to).
  { apply contains_not. unfold contains. destruct (find_sub (lit ";tag=") long_to) as [[a b]|] eqn:E; [|reflexivity]. exfalso. apply find_sub_some in E.
    assert (I : In 59 long_to) by (rewrite E; apply in_or_app; right; left; reflexivity). unfold long_to in I. apply in_app_or in I. destruct I as [I | I].
    - vm_compute in I. intuition discriminate.
    - apply repeat_spec in I. discriminate. }
  assert (F : values "To" (q_headers q) = [long_to]) by reflexivity.
  split; [exact G|]. split; [exact F|]. split.
  { unfold long_to, llen. rewrite app_length, repeat_length. vm_compute. reflexivity. }
  split.
  - intros code reason tag Hc Ht. apply create_exact; [exact G|exact Ht|]. right; right. split; [exact Hc|]. exists long_to. split; [reflexivity|]. split; [exact N|].
    destruct Ht as (T1 & _ & T2). assert (1 <= blen tag) by (destruct tag as [|c t]; [congruence|cbn [blen]; assert (1 <= len_utf8 c) by (unfold len_utf8; repeat destruct (_ <? _); lia); lia]). lia.
  - destruct (create_response q 100 (lit "Trying") (lit "t")) as [r|] eqn:E; [eauto|]. exfalso. apply create_exact in E; [|exact G|apply tag_is; [discriminate|reflexivity|vm_compute; discriminate]].
    destruct E as [E | [E | [E _]]].
    + apply E. now apply status_fits_spec.
    + unfold taken_over in E. unfold first_value in E. change (values "To" (q_headers q)) with [long_to] in E. vm_compute in E. now apply E.
    + now apply E.
Qed.
Print Assumptions C135_to_refuted.

(** ** C136: responses other than 100 carry one To tag, and it is the dialog's *)
Theorem C136_tag_partial : forall rq code reason tag r p x t0, create_response rq code reason tag = Ret r -> code <> 100 -> name_part p -> party x -> tag_text tag ->
  (values "To" (q_headers rq) = [p ++ lit "<" ++ u_raw x ++ lit ">"] ->
     exists v, values "To" (p_headers r) = [v] /\ extract_tag v = Ret (Some tag))
  /\ (values "To" (q_headers rq) = [p ++ lit "<" ++ u_raw x ++ lit ">;tag=" ++ t0] -> tag_text t0 ->
     exists v, values "To" (p_headers r) = [v] /\ extract_tag v = Ret (Some t0)).
Proof.
  intros rq code reason tag r p x t0 H Hc P X T. apply create_inv in H. destruct H as [_ ->]. cbn [p_headers].
  destruct (shape_values rq (tagged_to rq code tag) (lit "0") []) as (_ & _ & _ & _ & _ & V & _); [constructor..|]. rewrite V. clear V.
  unfold tagged_to. rewrite first_get. unfold first_value. replace (code =? 100) with false by lia. split; intros E; rewrite E.
  - eexists. split; [reflexivity|]. unfold with_tag. replace (contains (lit ";tag=") (p ++ lit "<" ++ u_raw x ++ lit ">")) with false.
    + rewrite <- !app_assoc. change (lit ">" ++ lit ";tag=" ++ tag) with (lit ">;tag=" ++ tag). now apply read_tag.
    + symmetry. apply contains_not. intros (a & b & O). assert (S := addr_segments p x P X).
      change (lit ";tag=") with ([59] ++ lit "tag=") in O. rewrite <- app_assoc in O. cbn [app] in O. rewrite O in S. rewrite split_on_app_parts in S.
      change (split_on 59 (lit "tag=" ++ b)) with (split_on 59 (lit "tag=" ++ b)) in S. destruct (split_on 59 b) as [|h l] eqn:B; [now apply split_on_nonempty in B|].
      assert (Q : split_on 59 (lit "tag=" ++ b) = (lit "tag=" ++ h) :: l) by (apply split_on_front; [vm_compute; intuition discriminate|exact B]).
      rewrite Q in S. destruct (S (lit "tag=" ++ h)) as [_ S2]; [apply in_or_app; right; now left|].
      assert (Z : exists z, trim (lit "tag=" ++ h) = lit "tag=" ++ z).
      { unfold trim, trim_by, trim_start_by. cbn [lit app drop_while is_ws]. change (drop_while is_ws (116 :: 97 :: 103 :: 61 :: h)) with (116 :: 97 :: 103 :: 61 :: h).
        destruct (trim_end_by_prefix is_ws (116 :: 97 :: 103 :: 61 :: h)) as (w & W & F).
        destruct (trim_end_by is_ws (116 :: 97 :: 103 :: 61 :: h)) as [|c0 [|c1 [|c2 [|c3 z]]]] eqn:D; cbn [app] in W.
        - rewrite <- W in F. discriminate F.
        - injection W as <- W. rewrite <- W in F. discriminate F.
        - injection W as <- <- W. rewrite <- W in F. discriminate F.
        - injection W as <- <- <- W. rewrite <- W in F. discriminate F.
        - injection W as <- <- <- <- W. exists z. exact D. }
      destruct Z as (z & Z). rewrite Z in S2. discriminate S2.
  - intros T0. eexists. split; [reflexivity|]. unfold with_tag. replace (contains (lit ";tag=") (p ++ lit "<" ++ u_raw x ++ lit ">;tag=" ++ t0)) with true; [now apply read_tag|].
    symmetry. apply contains_spec. exists (p ++ lit "<" ++ u_raw x ++ lit ">"), t0. rewrite <- !app_assoc. reflexivity.
Qed.
Print Assumptions C136_tag_partial.
Definition with_to (t : str) : req := mkReq MBye (SipU robert) [(lit "Via", lit "SIP/2.0/UDP a;branch=z9hG4bK1"); (lit "From", lit "<sip:a@h>;tag=1"); (lit "To", t); (lit "Call-ID", lit "c"); (lit "CSeq", lit "1 BYE")] [].
Example C136_example : exists r, create_response (with_to (lit "<sip:robert@b.example>")) 200 (lit "OK") (lit "srv1") = Ret r
  /\ values "To" (p_headers r) = [lit "<sip:robert@b.example>;tag=srv1"].
Proof. eexists. split; vm_compute; reflexivity. Qed.
(** a parameter or a display name that looks like a tag keeps the server from
    adding one: what the dialog takes for the tag is not one *)
Theorem C136_hidden_refuted : forall t, In t [lit "<sip:b@h;tag=x>"; lit """a;tag=b"" <sip:b@h>"] ->
  exists r, create_response (with_to t) 200 (lit "OK") (lit "srv1") = Ret r /\ values "To" (p_headers r) = [t].
Proof. intros t [<- | [<- | []]]; eexists; split; vm_compute; reflexivity. Qed.
Print Assumptions C136_hidden_refuted.
(** a tag after a blank, or one spelled in capitals, is not seen: a second one is added *)
Theorem C136_second_refuted : forall t, In t [lit "<sip:b@h>; tag=x"; lit "<sip:b@h>;TAG=x"] ->
  extract_tag t = Ret (Some (lit "x"))
  /\ exists r, create_response (with_to t) 200 (lit "OK") (lit "srv1") = Ret r /\ values "To" (p_headers r) = [t ++ lit ";tag=srv1"].
Proof. intros t [<- | [<- | []]]; split; [vm_compute; reflexivity|eexists; split; vm_compute; reflexivity|vm_compute; reflexivity|eexists; split; vm_compute; reflexivity]. Qed.
Print Assumptions C136_second_refuted.
(** Ringing and the acceptance of the same INVITE draw different tags, so the
    caller sees two dialogs (RFC 3261 8.2.6.2 asks for the same tag) *)
Theorem C136_two_tags_refuted : exists q t1 t2 s r1 r2 d, create_ringing q t1 = Ret r1 /\ accept_invite server1 NoAuth q None t2 = Ret (Some (s, r2, d))
  /\ exists e1 e2, new_uac q r1 alice robert = Ret (Some e1) /\ new_uac q r2 alice robert = Ret (Some e2) /\ d_id e1 <> d_id e2
     /\ forall b, mk_bye client1 fresh2 e1 = Ret b -> dm_find (us_dialogs s) b = Ret None.
Proof.
  exists invite_1, (lit "aaaa"), (lit "bbbb"). do 4 eexists. split; [vm_compute; reflexivity|]. split; [vm_compute; reflexivity|].
  do 2 eexists. split; [vm_compute; reflexivity|]. split; [vm_compute; reflexivity|]. split; [intros E; vm_compute in E; discriminate E|].
  intros b H. apply assemble_eq in H. subst b. vm_compute. reflexivity.
Qed.
Print Assumptions C136_two_tags_refuted.
