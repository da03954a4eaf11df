(** Properties C137 to C139: calls between the client and the server, requests
    inside them, and authentication. *)
From Coq Require Import Arith NArith Bool String List Lia ZifyBool ZifyN ZifyNat.
Import ListNotations.
From Verif Require Import Base BaseFacts NumFacts Headers HeadersProofs Method Text TextFacts Uri Msg Message MessageProofs Dialog DialogSpec DialogProofs P_Dialog Prack Via TxManager Dns Uac UacSpec UacProofs UacReads P_Uac Uas UasServe UasSpec UasProofs UasCalls UasTalk P_Uas.
Open Scope N_scope.
Open Scope list_scope.

(** ** C137: both ends of a call agree *)
Lemma dlg_make_inv : forall uac id rq rs la ra d, dlg_make uac id rq rs la ra = Some d ->
  d_id d = id /\ state_of_code (p_code rs) = Some (d_state d)
  /\ build_route_set (if uac then p_headers rs else q_headers rq) uac = Ok (d_routes d)
  /\ exists n, parse_cseq_number (q_headers rq) = Some n /\ d_lcseq d = (if uac then n else 0) /\ d_rcseq d = (if uac then 0 else n).
Proof.
  intros uac id rq rs la ra d H. unfold dlg_make in H. destruct (state_of_code _) as [st|]; [|discriminate].
  destruct (negb _); [discriminate|]. destruct (build_route_set _ _) as [routes|]; [|discriminate].
  destruct (is_some (validate_route_set routes)); [discriminate|]. destruct (parse_cseq_number _) as [n|]; [|discriminate].
  destruct (is_some _); [discriminate|]. match type of H with (if ?b then _ else _) = _ => destruct b end; [discriminate|].
  injection H as <-. cbn. split; [reflexivity|]. split; [reflexivity|]. split; [reflexivity|]. exists n. now repeat split.
Qed.
Lemma accept_parts : forall s a rq sdp tag s' r d, accept_invite s a rq sdp tag = Ret (Some (s', r, d)) ->
  authorised a = true /\ method_str (q_method rq) = lit "INVITE" /\ validate_invite rq tag = Ret None
  /\ create_ok s rq sdp tag = Ret (Some r) /\ s' = store s d
  /\ exists ru, from_uri rq = Some ru /\ new_uas rq r (us_local s) ru = Ret (Some d).
Proof.
  intros s a rq sdp tag s' r d H. unfold accept_invite, invite_admitted in H.
  destruct (str_eqb (method_str (q_method rq)) (lit "INVITE")) eqn:M; cbn [negb] in H; [|discriminate H]. apply str_eqb_spec in M.
  destruct (validate_invite rq tag) as [[v|]|]; cbn [obind is_none andb negb] in H; [discriminate H| |discriminate H].
  destruct (authorised a); cbn [negb] in H; [|discriminate H]. destruct (create_ok s rq sdp tag) as [o|]; cbn [obind] in H; [|discriminate H].
  destruct (from_uri rq) as [ru|]; [|discriminate H]. destruct o as [x|]; [|discriminate H].
  destruct (new_uas rq x (us_local s) ru) as [[y|]|] eqn:N; cbn [rbind] in H; [|discriminate H..]. injection H as <- <- <-.
  split; [reflexivity|]. split; [exact M|]. split; [reflexivity|]. split; [reflexivity|]. split; [reflexivity|]. exists ru. split; [reflexivity|exact N].
Qed.
Theorem C137_two_ends : forall s a rq sdp tag s' r d la ra e, accept_invite s a rq sdp tag = Ret (Some (s', r, d)) -> new_uac rq r la ra = Ret (Some e) ->
  two_ends d e /\ d_state d = Confirmed.
Proof.
  intros s a rq sdp tag s' r d la ra e H E. apply accept_parts in H. destruct H as (_ & _ & _ & O & _ & ru & _ & D).
  assert (A := reply_answers s rq tag (YOk sdp) r O (fun c t X => ltac:(discriminate X))). destruct A as (A1 & _ & (_ & A2 & _) & _). cbn [status_wanted] in A1. apply pair_equal_spec in A1. destruct A1 as [A1 _].
  unfold new_uas, id_from_response_uas in D. unfold new_uac, id_from_response_uac in E. destruct (id_of_headers (p_headers r)) as [[[[c f] t]|]|]; [|discriminate..].
  injection D as D. injection E as E. apply dlg_make_inv in D, E. destruct D as (D1 & D2 & D3 & n & D4 & D5 & D6). destruct E as (E1 & E2 & E3 & n' & E4 & E5 & E6).
  rewrite D4 in E4. injection E4 as <-. cbv iota in *. rewrite A1 in D2, E2. change (state_of_code 200) with (Some Confirmed) in D2, E2. injection D2 as D2. injection E2 as E2.
  split; [|now symmetry]. unfold two_ends. rewrite D1, E1. cbn [di_call di_local di_remote]. split; [reflexivity|]. split; [congruence|]. split; [congruence|]. split; [|congruence].
  unfold build_route_set in D3, E3. unfold values in A2. rewrite A2 in E3. destruct (add_routes _ _) as [l|]; [|discriminate]. injection D3 as <-. injection E3 as <-. now rewrite rev_involutive.
Qed.
Print Assumptions C137_two_ends.
Lemma inside_cseq : forall u f c u' q e, perform u f c = (u', Ret (Some q)) -> dialog_inside c = Some e -> d_lcseq e = 1 ->
  parse_cseq_number (q_headers q) = Some 2 /\ method_str (q_method q) <> lit "ACK".
Proof.
  intros u f c u' q e H Hi L. destruct (call_inside _ _ _ _ _ _ H Hi) as (_ & _ & _ & Cs & _). rewrite L in Cs. change (print_N (N.min 4294967295 (1 + 1))) with (lit "2") in Cs.
  destruct (call_good _ _ _ _ _ H) as (_ & M & _). rewrite M in Cs. rewrite M. unfold parse_cseq_number. rewrite (once_of _ _ _ Cs).
  destruct c; try discriminate Hi; cbn [method_wanted]; try (split; [reflexivity|discriminate]).
  all: match goal with |- context [if ?b then _ else _] => destruct b end; split; [reflexivity|discriminate|reflexivity|discriminate].
Qed.
(** the whole call: the INVITE of the client is accepted, the dialogs are the two
    ends of one call that reach each other, everything the client sends in its
    dialog belongs to the server's, in order, and a BYE ends it there *)
Theorem C137_call_partial : forall u f target sdp o q s a answer tag,
  mk_invite u f target sdp o = Ret q -> caller u -> party target -> (forall x, o = Some x -> party x) -> tag_text (fr_tag f) ->
  callee s -> authorised a = true -> tag_text tag -> (forall x, answer = Some x -> blen x <= 1048576) -> llen (us_dialogs s) < 10000 ->
  exists s' r d e, accept_invite s a q answer tag = Ret (Some (s', r, d)) /\ new_uac q r (sender u (CInvite target sdp o)) target = Ret (Some e)
  /\ two_ends d e /\ d_id e = mkId (fr_call f ++ lit "@localhost") (fr_tag f) tag
  /\ d_target d = ua_contact u /\ d_target e = us_contact s /\ d_ruri d = sender u (CInvite target sdp o)
  /\ dm_get (us_dialogs s') (d_id d) = Some d /\ (forall i, i <> d_id d -> dm_get (us_dialogs s') i = dm_get (us_dialogs s) i) /\ same_but_dialogs s s'
  /\ forall u2 f2 c u3 q2, caller u2 -> dialog_inside c = Some e -> perform u2 f2 c = (u3, Ret (Some q2)) ->
     dm_find (us_dialogs s') q2 = Ret (Some d)
     /\ (exists d2, update_from_request d q2 = (d2, None) /\ d_rcseq d2 = d_lcseq e + 1)
     /\ ((c = CBye e \/ exists w, c = CByeReason e w) -> forall tag2, tag_text tag2 ->
         exists s2 r2, handle_bye s' q2 d tag2 = Ret (Some (s2, r2)) /\ p_code r2 = 200 /\ without (d_id d) (us_dialogs s') (us_dialogs s2) /\ same_but_dialogs s' s2).
Proof.
  intros u f target sdp o q s a answer tag H C T O Tf S A Ht Hb L. destruct (invite_calls _ _ _ _ _ _ H C T O Tf) as (p & K).
  set (from := sender u (CInvite target sdp o)) in *. set (call := fr_call f ++ lit "@localhost") in *.
  set (d := server_end s q from (ua_contact u) call (fr_tag f) tag). set (e := client_end s from target call (fr_tag f) tag).
  assert (Pf : party from) by (destruct K as (_ & _ & _ & K & _); exact K).
  assert (Q : accept_invite s a q answer tag = Ret (Some (store s d, ok_response s q answer tag, d))) by (now apply (call_accepted s q a p from target (ua_contact u) call (fr_tag f) answer tag)).
  assert (E : new_uac q (ok_response s q answer tag) from target = Ret (Some e)) by (now apply (call_returned s q p from target (ua_contact u) call (fr_tag f) answer tag)).
  exists (store s d), (ok_response s q answer tag), d, e. split; [exact Q|]. split; [exact E|]. split; [now apply (C137_two_ends _ _ _ _ _ _ _ _ _ _ _ Q E)|].
  split; [reflexivity|]. split; [reflexivity|]. split; [reflexivity|]. split; [reflexivity|].
  destruct (C25_insert (us_dialogs s) d L) as (m & I & G & Oth); [discriminate|]. unfold store. rewrite I. cbn [fst put_dialogs us_dialogs].
  split; [exact G|]. split; [exact Oth|]. split; [reflexivity|]. intros u2 f2 c u3 q2 C2 Hi P.
  destruct (inside_server u2 f2 c u3 q2 e d P Hi C2) as [B F]; [exact Pf|exact T|exact Tf|exact Ht|reflexivity|]. destruct (inside_cseq _ _ _ _ _ _ P Hi eq_refl) as [N NA].
  split; [rewrite F; now rewrite G|]. split.
  - unfold update_from_request. rewrite N. change (2 =? 0) with false. cbv iota. replace (str_eqb (method_str (q_method q2)) (lit "ACK")) with false.
    2: { destruct (str_eqb (method_str (q_method q2)) (lit "ACK")) eqn:X; [apply str_eqb_spec in X; congruence|reflexivity]. }
    change (validate_cseq 2) with (@None dlg_error). change (0 <? d_rcseq d) with true. change (validate_cseq_increment (d_rcseq d) 2) with (@None dlg_error). cbv iota.
    eexists. split; [reflexivity|]. destruct (extract_contact (q_headers q2)); reflexivity.
  - intros Hc tag2 Ht2. assert (M : method_str (q_method q2) = lit "BYE").
    { destruct (call_good _ _ _ _ _ P) as (_ & M & _). rewrite M. destruct Hc as [-> | (w & ->)]; reflexivity. }
    do 2 eexists. split; [apply bye_handled; [exact M|exact B|now apply (inside_roomy u2 f2 c u3 q2 e)|apply party_plain, S]|]. split; [reflexivity|]. split; [apply removed_without|reflexivity].
Qed.
Print Assumptions C137_call_partial.
Example C137_example : mk_invite client1 fresh1 robert (Some (lit "v=0")) None = Ret invite_1 /\ caller client1 /\ party robert /\ tag_text (fr_tag fresh1)
  /\ callee server1 /\ authorised NoAuth = true /\ tag_text (lit "srv1") /\ llen (us_dialogs server1) < 10000
  /\ exists s r d e, accept_invite server1 NoAuth invite_1 (Some (lit "v=1")) (lit "srv1") = Ret (Some (s, r, d)) /\ new_uac invite_1 r alice robert = Ret (Some e)
     /\ exists bye, perform client1 fresh2 (CBye e) = (client1, Ret (Some bye)).
Proof.
  split; [exact invite_1_made|]. split; [exact client1_caller|]. split; [exact robert_party|]. split; [exact tag_t1|]. split; [exact server1_callee|]. split; [reflexivity|]. split; [exact tag_srv|].
  split; [reflexivity|]. do 4 eexists. split; [vm_compute; reflexivity|]. split; [vm_compute; reflexivity|]. eexists. vm_compute. reflexivity.
Qed.
(** with 10000 dialogs the call is accepted all the same, but the server does not
    remember it: the BYE of the client finds nothing *)
Lemma lookup_repeat : forall n (i j : dialog_id) (d : dialog), i <> j -> lookup did_eqb i (List.repeat (j, d) n) = None.
Proof.
  intros n i j d H. induction n as [|n IH]; [reflexivity|]. cbn [List.repeat lookup]. destruct (did_eqb i j) eqn:E; [apply did_eqb_spec in E; contradiction|exact IH].
Qed.
Theorem C137_full_refuted : exists s q s' r d e bye, accept_invite s NoAuth q None (lit "srv1") = Ret (Some (s', r, d)) /\ p_code r = 200
  /\ new_uac q r alice robert = Ret (Some e) /\ perform client1 fresh2 (CBye e) = (client1, Ret (Some bye)) /\ dm_find (us_dialogs s') bye = Ret None.
Proof.
  set (m := List.repeat (mkId (lit "x") (lit "y") (lit "z"), dialog1) (N.to_nat 10000)). exists (put_dialogs server1 m), invite_1.
  destruct invite_1_calls as (p & K).
  set (d := server_end (put_dialogs server1 m) invite_1 alice alice_here (lit "c1@localhost") (lit "t1") (lit "srv1")).
  assert (Q : accept_invite (put_dialogs server1 m) NoAuth invite_1 None (lit "srv1") = Ret (Some (store (put_dialogs server1 m) d, ok_response (put_dialogs server1 m) invite_1 None (lit "srv1"), d))).
  { apply (call_accepted _ invite_1 NoAuth p alice robert alice_here (lit "c1@localhost") (lit "t1") None (lit "srv1") K tag_srv); [exact server1_callee|reflexivity|discriminate]. }
  set (e := client_end (put_dialogs server1 m) alice robert (lit "c1@localhost") (lit "t1") (lit "srv1")).
  destruct (perform client1 fresh2 (CBye e)) as [u o] eqn:P.
  assert (R : exists bye, u = client1 /\ o = Ret (Some bye)).
  { unfold e, client_end in P. change (us_contact (put_dialogs server1 m)) with robert_here in P. vm_compute in P. injection P as <- <-. eexists. split; reflexivity. }
  destruct R as (bye & -> & ->). do 3 eexists. exists e, bye. split; [exact Q|]. split; [reflexivity|]. split.
  { apply (call_returned _ invite_1 p alice robert alice_here); [exact K|exact tag_srv|exact server1_callee|exact alice_party|exact robert_party]. }
  split; [exact P|]. destruct (inside_server client1 fresh2 (CBye e) client1 bye e d P eq_refl client1_caller) as [_ F]; [exact alice_party|exact robert_party|exact tag_t1|exact tag_srv|reflexivity|].
  rewrite F. unfold store, dm_insert, dm_insert_seen, MAX_CONFIRMED_DIALOGS. cbn [put_dialogs us_dialogs]. replace (10000 <=? llen m) with true.
  2: { unfold m, llen. rewrite repeat_length, N2Nat.id. reflexivity. }
  cbn [fst]. unfold dm_get, m. rewrite lookup_repeat; [reflexivity|discriminate].
Qed.
Print Assumptions C137_full_refuted.
(** a display name with an angle bracket keeps the server from finding the
    caller's address: the INVITE is refused with an error *)
Theorem C137_display_refuted : exists u q, set_display client1 (lit "A <3 B") = Some u /\ mk_invite u fresh1 robert None None = Ret q
  /\ accept_invite server1 NoAuth q None (lit "srv1") = Ret None.
Proof.
  do 2 eexists. split; [vm_compute; reflexivity|]. split; [vm_compute; reflexivity|vm_compute; reflexivity].
Qed.
Print Assumptions C137_display_refuted.

(** ** C138: requests inside a dialog *)
(** what the calls for requests inside a dialog accept *)
Lemma inside_ret : forall m rq d b, inside m rq d = Ret b -> b = true -> method_str (q_method rq) = lit m /\ addressed rq d.
Proof.
  intros m rq d b H ->. unfold inside in H. destruct (str_eqb (method_str (q_method rq)) (lit m)) eqn:E; cbn [negb] in H; [|discriminate].
  apply str_eqb_spec in E. split; [exact E|]. now apply dialog_request_spec.
Qed.
Theorem C138_accepted : forall s rq d tag now,
  (forall s' r, handle_bye s rq d tag = Ret (Some (s', r)) ->
     method_str (q_method rq) = lit "BYE" /\ addressed rq d /\ answers s rq tag (YOk None) r /\ without (d_id d) (us_dialogs s) (us_dialogs s') /\ same_but_dialogs s s')
  /\ (forall r, handle_info s rq d tag = Ret (Some r) -> method_str (q_method rq) = lit "INFO" /\ addressed rq d /\ answers s rq tag (YOk None) r)
  /\ (forall r t, accept_refer s rq d tag = Ret (Some (r, t)) ->
     method_str (q_method rq) = lit "REFER" /\ addressed rq d /\ p_code r = 202 /\ mirrors rq r /\ header_of (q_headers rq) (lit "Refer-To") = Some t)
  /\ (forall s' r, handle_prack s rq d tag now = Ret (Some (s', r)) -> method_str (q_method rq) = lit "PRACK" /\ addressed rq d /\ us_dialogs s' = us_dialogs s).
Proof.
  intros s rq d tag now. repeat apply conj.
  - intros s' r H. unfold handle_bye in H. destruct (inside "BYE" rq d) as [b|] eqn:I; cbn [obind] in H; [|discriminate]. destruct b; cbn [negb] in H; [|discriminate].
    destruct (inside_ret _ _ _ _ I eq_refl) as [M A]. cbv zeta in H. set (s1 := put_dialogs s (fst (dm_remove (us_dialogs s) (d_id d)))) in H.
    destruct (create_ok s1 rq None tag) as [[r1|]|] eqn:O; cbn [rbind] in H; [|discriminate..]. injection H as <- <-.
    split; [exact M|]. split; [exact A|]. split; [exact (reply_answers s1 rq tag (YOk None) r1 O (fun c t X => ltac:(discriminate X)))|]. split; [apply removed_without|reflexivity].
  - intros r H. unfold handle_info in H. destruct (inside "INFO" rq d) as [b|] eqn:I; cbn [obind] in H; [|discriminate]. destruct b; cbn [negb] in H; [|discriminate].
    destruct (inside_ret _ _ _ _ I eq_refl) as [M A]. split; [exact M|]. split; [exact A|]. exact (reply_answers s rq tag (YOk None) r H (fun c t X => ltac:(discriminate X))).
  - intros r t H. unfold accept_refer in H. destruct (inside "REFER" rq d) as [b|] eqn:I; cbn [obind] in H; [|discriminate]. destruct b; cbn [negb] in H; [|discriminate].
    destruct (inside_ret _ _ _ _ I eq_refl) as [M A]. destruct (header_of (q_headers rq) (lit "Refer-To")) as [t'|]; [|discriminate].
    destruct (create_response rq 202 (lit "Accepted") tag) as [r1|] eqn:C; cbn [obind] in H; [|discriminate]. destruct (push_line (contact_line s) r1) as [r2|] eqn:P; cbn [obind] in H; [|discriminate].
    destruct (retag tag r2) as [r3|] eqn:T; cbn [obind] in H; [|discriminate]. injection H as <- <-. split; [exact M|]. split; [exact A|].
    apply create_inv in C. destruct C as [_ ->]. apply push_line_inv in P. cbn [p_headers p_code p_reason p_body] in P. subst r2. rewrite shape_snoc in T. cbn [app] in T.
    apply retag_same in T; [|repeat constructor|now left]. subst r3. cbn [p_code p_headers]. split; [reflexivity|].
    destruct (shape_values rq (tagged_to rq 202 tag) (lit "0") [contact_line s]) as (V1 & V2 & V3 & V4 & V5 & _); [repeat constructor..|]. split; [|reflexivity].
    now repeat split.
  - intros s' r H. unfold handle_prack in H. destruct (inside "PRACK" rq d) as [b|] eqn:I; cbn [obind] in H; [|discriminate]. destruct b; cbn [negb] in H; [|discriminate].
    destruct (inside_ret _ _ _ _ I eq_refl) as [M A]. split; [exact M|]. split; [exact A|]. cbv zeta in H. destruct (pv_check _ _ _) as [v' [x|]].
    + destruct (create_ok s rq None tag) as [[r1|]|]; cbn [rbind] in H; [|discriminate..]. injection H as <- _. reflexivity.
    + destruct (prack_is_400 _).
      * destruct (create_response rq 400 _ tag) as [r1|]; cbn [obind] in H; [|discriminate]. injection H as <- _. reflexivity.
      * destruct (create_response rq 481 _ tag) as [r1|]; cbn [obind] in H; [|discriminate]. injection H as <- _. reflexivity.
Qed.
Print Assumptions C138_accepted.

Definition bye_1 : req := match perform client1 fresh2 (CBye (client_end server1 alice robert (lit "c1@localhost") (lit "t1") (lit "srv1"))) with (_, Ret (Some q)) => q | _ => invite_1 end.
Definition call_1 : dialog := server_end server1 invite_1 alice alice_here (lit "c1@localhost") (lit "t1") (lit "srv1").
Example C138_example : exists s' r, handle_bye (put_dialogs server1 [(d_id call_1, call_1)]) bye_1 call_1 (lit "x") = Ret (Some (s', r)) /\ us_dialogs s' = [].
Proof. do 2 eexists. split; vm_compute; reflexivity. Qed.
(** a request that is not addressed to the dialog is refused (without an effect on
    the server) *)
Theorem C138_refused : forall s rq d tag now x, id_of_headers (q_headers rq) = Ret x -> ~ addressed rq d ->
  (forall o, handle_bye s rq d tag = Ret o -> o = None) /\ (forall o, handle_info s rq d tag = Ret o -> o = None)
  /\ (forall o, accept_refer s rq d tag = Ret o -> o = None) /\ (forall o, handle_prack s rq d tag now = Ret o -> o = None).
Proof.
  intros s rq d tag now x I N.
  assert (D : forall m b, inside m rq d = Ret b -> b = false) by (intros m b H; destruct b; [|reflexivity]; exfalso; apply N; exact (proj2 (inside_ret m rq d true H eq_refl))).
  repeat apply conj; intros o H.
  - unfold handle_bye in H. destruct (inside "BYE" rq d) as [b|] eqn:E; cbn [obind] in H; [|discriminate]. rewrite (D _ _ E) in H. cbn [negb] in H. now injection H as <-.
  - unfold handle_info in H. destruct (inside "INFO" rq d) as [b|] eqn:E; cbn [obind] in H; [|discriminate]. rewrite (D _ _ E) in H. cbn [negb] in H. now injection H as <-.
  - unfold accept_refer in H. destruct (inside "REFER" rq d) as [b|] eqn:E; cbn [obind] in H; [|discriminate]. rewrite (D _ _ E) in H. cbn [negb] in H. now injection H as <-.
  - unfold handle_prack in H. destruct (inside "PRACK" rq d) as [b|] eqn:E; cbn [obind] in H; [|discriminate]. rewrite (D _ _ E) in H. cbn [negb] in H. now injection H as <-.
Qed.
Print Assumptions C138_refused.
(** the dispatcher hands a request inside a dialog to the application together
    with the dialog it is addressed to, and answers 481 itself if there is none *)
Definition needs_dialog (m : method) : option string :=
  match m with MBye => Some "BYE"%string | MRefer => Some "REFER"%string | MUpdate => Some "UPDATE"%string | MPrack => Some "PRACK"%string | MInfo => Some "INFO"%string | _ => None end.
Theorem C138_dispatch : forall g s c a ch rq ok tag m es e call ft tt', needs_dialog (q_method rq) = Some m -> se_auth g = false ->
  id_of_headers (q_headers rq) = Ret (Some (call, ft, tt')) -> dispatch g s c a ch rq ok tag = (es, e) ->
  match dm_get (us_dialogs s) (mkId call tt' ft) with
  | Some d => es = [Handler m (Some d)] /\ e = (if ok then Done else Failed)
  | None => es = [] /\ e = Crashed \/ exists r, es = [Final r] /\ p_code r = 481 /\ e = Done
  end.
Proof.
  intros g s c a ch rq ok tag m es e call ft tt' M A I H. unfold dispatch in H. rewrite A in H. cbn [andb] in H.
  assert (R : route g s c rq ok tag = in_dialog g s c m rq ok tag) by (unfold route; destruct (q_method rq); try discriminate M; cbn in M; injection M as <-; reflexivity).
  rewrite R in H. unfold in_dialog, dm_find, id_from_request in H. rewrite I in H. cbn [di_call di_local di_remote] in H.
  destruct (dm_get (us_dialogs s) (mkId call tt' ft)) as [d|].
  - unfold asking in H. destruct ok; injection H as <- <-; split; reflexivity.
  - unfold sending in H. destruct (create_response rq 481 (lit "Call/Transaction Does Not Exist") tag) as [r|] eqn:C; cbn [obind] in H; [|injection H as <- <-; now left].
    unfold auto_fill in H. destruct (add_missing _ _ _) as [h3|]; cbn [obind] in H; [|injection H as <- <-; now left].
    destruct (add_missing _ _ _) as [h4|]; cbn [obind] in H; [|injection H as <- <-; now left]. injection H as <- <-. right. eexists. split; [reflexivity|]. split; [|reflexivity].
    apply create_inv in C. destruct C as [_ ->]. reflexivity.
Qed.
Print Assumptions C138_dispatch.
Definition settings1 : settings := mkSettings true true true (lit "siphon") false (lit "10.0.0.1", 5060) None DEFAULT_ALLOW.
Definition arrival1 : arrival := mkArrival (lit "10.0.0.2", 5060) None Udp.
Example C138_dispatch_example : dispatch settings1 (put_dialogs server1 [(d_id call_1, call_1)]) arrival1 NoAuth None bye_1 true (lit "x") = ([Handler "BYE" (Some call_1)], Done)
  /\ exists r, dispatch settings1 server1 arrival1 NoAuth None bye_1 true (lit "x") = ([Final r], Done) /\ p_code r = 481.
Proof. split; [vm_compute; reflexivity|]. eexists. split; vm_compute; reflexivity. Qed.
(** a From with one accented letter in the wrong place ends the dispatcher *)
Definition odd_from : req := mkReq MBye (SipU robert) [(lit "Via", lit "SIP/2.0/UDP a;branch=z9hG4bK1"); (lit "From", lit "<sip:a@h>;xyz" ++ [233]); (lit "To", lit "<sip:b@h>;tag=2"); (lit "Call-ID", lit "c"); (lit "CSeq", lit "1 BYE")] [].
Theorem C138_panic_refuted : forall g s c a ch ok tag d, se_auth g = false ->
  dispatch g s c a ch odd_from ok tag = ([], Crashed) /\ (di_call (d_id d) = lit "c" -> handle_bye s odd_from d tag = Panics).
Proof.
  intros g s c a ch ok tag d A. split.
  - unfold dispatch. rewrite A. cbn [andb]. change (route g s c odd_from ok tag) with (in_dialog g s c "BYE" odd_from ok tag). unfold in_dialog, dm_find.
    replace (id_from_request odd_from) with (@Panics (option dialog_id)) by (vm_compute; reflexivity). reflexivity.
  - intros E. unfold handle_bye, inside. change (negb (str_eqb (method_str (q_method odd_from)) (lit "BYE"))) with false. cbv iota.
    unfold dialog_request. replace (header_of (q_headers odd_from) (lit "Call-ID")) with (Some (lit "c")) by (vm_compute; reflexivity). rewrite E, str_eqb_refl. cbn [negb].
    replace (header_of (q_headers odd_from) (lit "From")) with (Some (lit "<sip:a@h>;xyz" ++ [233])) by (vm_compute; reflexivity).
    replace (header_of (q_headers odd_from) (lit "To")) with (Some (lit "<sip:b@h>;tag=2")) by (vm_compute; reflexivity).
    replace (extract_tag (lit "<sip:a@h>;xyz" ++ [233])) with (@Panics (option str)) by (vm_compute; reflexivity). reflexivity.
Qed.
Print Assumptions C138_panic_refuted.
(** the sequence number of a request inside a dialog is not looked at: an old BYE
    is handed to the application and accepted *)
Theorem C138_replay_refuted : exists d q s' r, d_rcseq d = 7 /\ parse_cseq_number (q_headers q) = Some 2 /\ snd (update_from_request d q) <> None
  /\ dispatch settings1 (put_dialogs server1 [(d_id d, d)]) arrival1 NoAuth None q true (lit "x") = ([Handler "BYE" (Some d)], Done)
  /\ handle_bye (put_dialogs server1 [(d_id d, d)]) q d (lit "x") = Ret (Some (s', r)) /\ p_code r = 200 /\ us_dialogs s' = [].
Proof.
  exists (set_rcseq call_1 7), bye_1. do 2 eexists. split; [reflexivity|]. split; [vm_compute; reflexivity|]. split; [intros E; vm_compute in E; discriminate E|].
  split; [vm_compute; reflexivity|]. split; [vm_compute; reflexivity|]. split; vm_compute; reflexivity.
Qed.
Print Assumptions C138_replay_refuted.

(** ** C139: authentication *)
Definition asked (es : list effect) : Prop := exists m d, In (Handler m d) es.
Theorem C139_gate : forall g s c a ch rq ok tag es e, se_auth g = true -> dispatch g s c a ch rq ok tag = (es, e) ->
  (q_method rq = MAck -> (es, e) = route g s c rq ok tag)
  /\ (q_method rq <> MAck -> authorised a = true -> (es, e) = route g s c rq ok tag)
  /\ (q_method rq <> MAck -> authorised a = false ->
        ~ asked es /\ (es = [] \/ exists r r', es = [Final r'] /\ ch = Some r /\ p_code r' = p_code r /\ e = Done)).
Proof.
  intros g s c a ch rq ok tag es e A H. unfold dispatch in H. rewrite A in H. cbn [andb] in H. repeat apply conj.
  - intros M. rewrite M in H. cbn [method_eqb negb] in H. now rewrite H.
  - intros M Z. replace (method_eqb (q_method rq) MAck) with false in H.
    2: { destruct (q_method rq); try reflexivity. congruence. }
    cbn [negb] in H. unfold authorised in Z. destruct (verify_authentication a) as [[|]|]; [now rewrite H|discriminate..].
  - intros M Z. replace (method_eqb (q_method rq) MAck) with false in H.
    2: { destruct (q_method rq); try reflexivity. congruence. }
    cbn [negb] in H. unfold authorised in Z. destruct (verify_authentication a) as [[|]|]; [discriminate| |].
    + assert (W : es = [] \/ exists r r', es = [Final r'] /\ ch = Some r /\ p_code r' = p_code r /\ e = Done).
      { destruct a; [injection H as <- _; now left|..]; (destruct ch as [r|]; [|injection H as <- _; now left]); unfold sending in H;
          (destruct (auto_fill g s c r) as [r'|] eqn:F; [|injection H as <- _; now left]); injection H as <- <-; right; exists r, r'; (split; [reflexivity|]); (split; [reflexivity|]); (split; [|reflexivity]);
          unfold auto_fill in F; (destruct (add_missing _ _ _) as [h3|]; cbn [obind] in F; [|discriminate]); (destruct (add_missing _ _ _) as [h4|]; cbn [obind] in F; [|discriminate]); injection F as <-; reflexivity. }
      split; [|exact W]. intros (m & d & I). destruct W as [-> | (r & r' & -> & _)]; [destruct I|]. destruct I as [I | []]. discriminate.
    + injection H as <- <-. split; [|now left]. intros (m & d & []).
Qed.
Print Assumptions C139_gate.
(** a call is accepted only for somebody who may make it *)
Theorem C139_calls : forall s a rq sdp tag x, accept_invite s a rq sdp tag = Ret (Some x) -> a = NoAuth \/ a = AuthSays true.
Proof.
  intros s a rq sdp tag [[s' r] d] H. apply accept_parts in H. destruct H as [H _]. destruct a as [| |[|]]; try discriminate; [now left|now right].
Qed.
Print Assumptions C139_calls.
Definition secured : settings := mkSettings true true true (lit "siphon") true (lit "10.0.0.1", 5060) None DEFAULT_ALLOW.
Definition challenge1 : resp := mkResp 401 (lit "Unauthorized") [(lit "WWW-Authenticate", lit "Digest realm=""a"", nonce=""1""")] [].
Example C139_example : exists r, dispatch secured server1 arrival1 (AuthSays false) (Some challenge1) invite_1 true (lit "x") = ([Final r], Done) /\ p_code r = 401.
Proof. eexists. split; vm_compute; reflexivity. Qed.
(** a CANCEL, which a client cannot send again with credentials (RFC 3261 22.1), is
    challenged like everything else *)
Theorem C139_cancel_refuted : exists q r, q_method q = MCancel /\ dispatch secured server1 arrival1 (AuthSays false) (Some challenge1) q true (lit "x") = ([Final r], Done) /\ p_code r = 401.
Proof. exists (mkReq MCancel (SipU robert) (q_headers invite_1) []). eexists. split; [reflexivity|]. split; vm_compute; reflexivity. Qed.
Print Assumptions C139_cancel_refuted.
