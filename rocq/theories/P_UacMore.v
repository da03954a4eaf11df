(** More of C119, C120 and C127: registrations, acknowledgements of provisional responses, extra
    headers, and what responses do to a dialog. *)
From Coq Require Import Arith NArith Bool String List Lia ZifyBool ZifyN ZifyNat.
Import ListNotations.
From Verif Require Import Base BaseFacts NumFacts Headers HeadersProofs Method Text TextFacts Uri Msg Message AnyUri Dialog Auth Uac UacSend UacSpec UacProofs UacReads UacRegister SdpTextSpec SdpTextProofs P_Uac.
Open Scope N_scope.
Open Scope list_scope.

(** a REGISTER goes to the registrar and registers the client's own address *)
Theorem C120_register : forall u f r n u' q, perform u f (CRegister r n) = (u', Ret (Some q)) ->
  q_uri q = SipU r /\ once q "To" (lit "<" ++ u_raw (ua_local u) ++ lit ">").
Proof.
  intros u f r n u' q H. cbn [perform] in H. unfold mk_register in H.
  destruct (remembered (u_raw r) (fr_tag f) (ua_tags u)) as [tags tag]. destruct (remembered (u_raw r) (call_of f) (ua_calls u)) as [calls cl].
  destruct (next_register_cseq (u_raw r) (ua_cseqs u)) as [cs k]. injection H as _ H. apply lift_some in H. apply assemble_eq in H. subst q.
  split; [reflexivity|]. read_headers. reflexivity.
Qed.
Print Assumptions C120_register.

(** a PRACK names the response number, the INVITE's number and its method, in this order *)
Lemma two_words : forall n m, is_word m -> split_ws (print_N n ++ lit " " ++ m) = [print_N n; m].
Proof.
  intros n m Hm. replace (print_N n ++ lit " " ++ m) with (print_N n ++ flat_map (fun o => 32 :: o) [m]) by (cbn [flat_map app]; now rewrite app_nil_r).
  apply split_ws_spaced.
  - split; [apply print_N_nonempty|]. intros c Hc. pose proof (print_N_word n) as W. rewrite forallb_forall in W. specialize (W c Hc). now apply negb_true_iff in W.
  - intros x [<-|[]]. exact Hm.
Qed.
Theorem C120_prack : forall u f i p d u' q k m r, perform u f (CPrack i p d) = (u', Ret (Some q)) ->
  header_of (q_headers i) (lit "CSeq") = Some (print_N k ++ lit " " ++ m) -> header_of (p_headers p) (lit "RSeq") = Some (print_N r) ->
  k <= 4294967295 -> r <= 4294967295 -> is_word m ->
  once q "RAck" (print_N r ++ lit " " ++ print_N k ++ lit " " ++ m).
Proof.
  intros u f i p d u' q k m r H EC ER Hk Hr Hm. cbn [perform] in H. injection H as _ H. unfold mk_prack in H. rewrite EC, ER, (two_words k m Hm) in H.
  rewrite (parse_uint_print u32_max k Hk), (parse_uint_print u32_max r Hr) in H. apply lift_some in H. apply prack_inside in H. apply H.
Qed.
Print Assumptions C120_prack.
Theorem C120_prack_response : forall u f p d u' q k m r, perform u f (CPrackFrom p d) = (u', Ret (Some q)) ->
  header_of (p_headers p) (lit "CSeq") = Some (print_N k ++ lit " " ++ m) -> header_of (p_headers p) (lit "RSeq") = Some (print_N r) ->
  r <= 4294967295 -> is_word m ->
  once q "RAck" (print_N r ++ lit " " ++ print_N k ++ lit " " ++ m).
Proof.
  intros u f p d u' q k m r H EC ER Hr Hm. cbn [perform] in H. injection H as _ H. unfold mk_prack_from in H. rewrite EC, ER, (two_words k m Hm) in H.
  rewrite (parse_uint_print u32_max r Hr) in H. apply lift_some in H. apply prack_inside in H. apply H.
Qed.
Print Assumptions C120_prack_response.
Definition ringing1 : resp := mkResp 183 (lit "Session Progress") [(lit "RSeq", lit "7"); (lit "CSeq", lit "1 INVITE")] [].
Example C120_prack_example : exists q, perform client1 fresh1 (CPrackFrom ringing1 dialog1) = (client1, Ret (Some q)) /\ once q "RAck" (lit "7 1 INVITE").
Proof. eexists. split; [vm_compute; reflexivity|vm_compute; reflexivity]. Qed.

(** extra headers of a MESSAGE come after those it always has, in order *)
Theorem C119_extra : forall u f t ct b extra q, mk_message_with u f t ct b extra = Ret q ->
  exists q0, mk_message u f t ct b = Ret q0 /\ q_method q = q_method q0 /\ q_uri q = q_uri q0 /\ q_body q = q_body q0
  /\ q_headers q = q_headers q0 ++ extra.
Proof.
  intros u f t ct b extra. unfold mk_message_with. destruct (mk_message u f t ct b) as [q0|].
  - intros q H. exists q0. split; [reflexivity|]. revert q0 q H. induction extra as [|[n v] extra IH]; intros q0 q H.
    + cbn in H. injection H as <-. rewrite app_nil_r. repeat split.
    + cbn [fold_left fst snd] in H. destruct (add_header (Ret q0) n v) as [q1|] eqn:E.
      * apply IH in H as (A & B & C & D). apply add_header_eq in E as (q2 & E & ->). injection E as <-. cbn [q_method q_uri q_body q_headers] in *. rewrite A, B, C, D, <- app_assoc. repeat split.
      * exfalso. clear IH. induction extra as [|e l IH]; [discriminate H|]. cbn [fold_left] in H. now apply IH.
  - intros q H. exfalso. induction extra as [|e l IH]; [discriminate H|]. cbn [fold_left] in H. now apply IH.
Qed.
Print Assumptions C119_extra.
Example C119_extra_example : exists q, mk_message_with client1 fresh1 robert (lit "text/plain") (lit "hi") [(lit "Subject", lit "x")] = Ret q.
Proof. eexists. vm_compute. reflexivity. Qed.

(** the answer to a request inside a dialog: success confirms it, 408 and 481 end it, others leave it *)
Theorem C127_response : forall d r d' ok, in_dialog_response d r = (d', ok) ->
  d_id d' = d_id d /\ d_lcseq d' = d_lcseq d
  /\ (200 <= p_code r < 300 -> ok = true /\ (d_state d = Early -> d_state d' = Confirmed) /\ (d_state d <> Early -> d_state d' = d_state d))
  /\ (p_code r = 408 \/ p_code r = 481 -> ok = false /\ d_state d' = Terminated /\ d_target d' = d_target d /\ d_routes d' = d_routes d)
  /\ (~ 200 <= p_code r < 300 -> p_code r <> 408 -> p_code r <> 481 -> ok = true /\ d' = d).
Proof.
  intros d r d' ok H. unfold in_dialog_response in H. destruct ((200 <=? p_code r) && (p_code r <? 300)) eqn:E.
  - injection H as <- <-. unfold update_from_response. rewrite E.
    destruct (extract_contact (p_headers r)) as [x|]; destruct d as [i st tg rs lc rc ak lu ru sec se rf uac]; destruct st;
      cbn [d_state set_target dstate_eqb andb];
      (destruct (build_route_set (p_headers r) true) as [[|? ?]|]; destruct (extract_session_timer r) as [[? ?]|]);
      cbn; (split; [reflexivity|]; split; [reflexivity|]; split; [intros _; split; [reflexivity|]; split; intros K; try reflexivity; try discriminate K; now destruct K|]; split; [lia|]; lia).
  - destruct ((p_code r =? 408) || (p_code r =? 481)) eqn:E2.
    + injection H as <- <-. destruct d. cbn. split; [reflexivity|]. split; [reflexivity|]. split; [lia|]. split; [now repeat split|lia].
    + injection H as <- <-. split; [reflexivity|]. split; [reflexivity|]. split; [lia|]. split; [lia|]. now split.
Qed.
Print Assumptions C127_response.
Example C127_response_example : exists d', in_dialog_response dialog1 (mkResp 481 (lit "Gone") [] []) = (d', false) /\ d_state d' = Terminated.
Proof. eexists. split; [vm_compute; reflexivity|reflexivity]. Qed.
