(** Proofs about the request builders of the user agent client. *)
From Coq Require Import NArith ZArith Bool String List Lia ZifyBool ZifyN ZifyNat.
Import ListNotations.
From Verif Require Import Base BaseFacts NumFacts Headers Method Text TextFacts Uri Msg Message AnyUri Dialog Auth Uac UacSend UacSpec.
Open Scope N_scope.
Open Scope list_scope.

(** ** Pushing headers *)
Lemma push_all_eq : forall l acc hs, push_all acc l = Ret hs -> hs = acc ++ l.
Proof.
  induction l as [|[n v] l IH]; intros acc hs H; cbn in H.
  - injection H as <-. now rewrite app_nil_r.
  - unfold hpush in H. destruct (MAX_HEADERS <=? llen acc); [discriminate|].
    unfold header_new in H. destruct (validate_header_name n); [discriminate|]. destruct (validate_header_value v); [discriminate|].
    apply IH in H. rewrite H. now rewrite <- app_assoc.
Qed.
Lemma finish_eq : forall m u hs b q, finish m u hs b = Ret q -> q = mkReq m (SipU u) hs b.
Proof.
  intros m u hs b q H. unfold finish, request_new in H. destruct (MAX_BODY_SIZE <? llen b); [discriminate|]. now injection H as <-.
Qed.
Lemma assemble_eq : forall m u l b q, assemble m u l b = Ret q -> q = mkReq m (SipU u) l b.
Proof.
  intros m u l b q H. unfold assemble in H. destruct (push_all [] l) as [hs|] eqn:E; [|discriminate].
  apply push_all_eq in E. cbn in E. subst hs. now apply finish_eq.
Qed.
Lemma add_header_eq : forall o n v q, add_header o n v = Ret q ->
  exists q0, o = Ret q0 /\ q = mkReq (q_method q0) (q_uri q0) (q_headers q0 ++ [(n, v)]) (q_body q0).
Proof.
  intros [q0|] n v q H; [|discriminate]. cbn in H. unfold hpush in H. destruct (MAX_HEADERS <=? llen (q_headers q0)); [discriminate|].
  unfold header_new in H. destruct (validate_header_name n); [discriminate|]. destruct (validate_header_value v); [discriminate|].
  injection H as <-. now exists q0.
Qed.
Lemma lift_some : forall o q, lift o = Ret (Some q) -> o = Ret q.
Proof. intros [x|] q H; [|discriminate]. cbn in H. congruence. Qed.

(** ** Reading headers off a literal list *)
Lemma get_all_cons : forall n k v r, hget_all n ((k, v) :: r) = if eq_ic k n then v :: hget_all n r else hget_all n r.
Proof. intros. unfold hget_all. cbn [filter]. unfold name_eq at 1. cbn [fst]. destruct (eq_ic k n); reflexivity. Qed.
Lemma get_all_nil : forall n, hget_all n [] = []. Proof. reflexivity. Qed.
Lemma get_all_app : forall n a b, hget_all n (a ++ b) = hget_all n a ++ hget_all n b.
Proof. intros. unfold hget_all. now rewrite filter_app, map_app. Qed.
Lemma get_head : forall n hs v r, hget_all n hs = v :: r -> hget n hs = Some v.
Proof.
  intros n hs v r. unfold hget_all, hget. induction hs as [|h hs IH]; cbn; [discriminate|].
  destruct (name_eq h n); cbn; [congruence|exact IH].
Qed.
Lemma get_none : forall n hs, hget_all n hs = [] -> hget n hs = None.
Proof.
  intros n hs. unfold hget_all, hget. induction hs as [|h hs IH]; cbn; [reflexivity|].
  destruct (name_eq h n); cbn; [discriminate|exact IH].
Qed.
Lemma contains_get_all : forall n hs, hcontains n hs = negb (match hget_all n hs with [] => true | _ => false end).
Proof.
  intros n hs. unfold hcontains, hget_all. induction hs as [|h hs IH]; [reflexivity|]. cbn. destruct (name_eq h n); [reflexivity|exact IH].
Qed.
Lemma get_yes : forall n k v r, eq_ic k n = true -> hget_all n ((k, v) :: r) = v :: hget_all n r.
Proof. intros n k v r H. now rewrite get_all_cons, H. Qed.
Lemma get_no : forall n k v r, eq_ic k n = false -> hget_all n ((k, v) :: r) = hget_all n r.
Proof. intros n k v r H. now rewrite get_all_cons, H. Qed.
Ltac read_step :=
  first [ rewrite get_all_nil
        | match goal with
          | |- context [hget_all ?n ((?k, ?v) :: ?r)] =>
              let x := eval vm_compute in (eq_ic k n) in
              match x with
              | true => rewrite (get_yes n k v r) by reflexivity
              | false => rewrite (get_no n k v r) by reflexivity
              end
          end ].
Ltac read_headers :=
  unfold once, never; cbn [q_headers];
  unfold body_lines, opt_line, notify_lines; unfold via_line, max_forwards, agent_line, zero_length, length_line; unfold ln;
  cbn [app]; rewrite ?get_all_app; repeat read_step; cbn [app].

Definition good_call (u : uac) (c : call) (q : req) : Prop :=
  wellformed (ua_agent u) q /\ method_str (q_method q) = lit (method_wanted c)
  /\ match body_wanted c with
     | Some (ct, b) => q_body q = utf8 b /\ once q "Content-Type" ct
     | None => q_body q = [] /\ never q "Content-Type"
     end
  /\ (forall n v, In (n, v) (headers_wanted u c) -> once q n v)
  /\ match contact_wanted u c with Some v => once q "Contact" v | None => never q "Contact" end.

Lemma cseq_one : forall m t, lit t = print_N 1 ++ [32] ++ method_str m -> exists n, 1 <= n <= 4294967295 /\ lit t = print_N n ++ [32] ++ method_str m.
Proof. intros m t H. exists 1. split; [lia|exact H]. Qed.
Lemma next_register_range : forall k m, 1 <= snd (next_register_cseq k m) <= 4294967295.
Proof.
  intros k m. unfold next_register_cseq. destruct (lookup str_eqb k m) as [n|].
  - cbn [snd]. pose proof (N.mod_lt (n + 1) 4294967296 ltac:(lia)). destruct ((n + 1) mod 4294967296 =? 0) eqn:E; lia.
  - destruct (MAX_REGISTRARS <=? llen m); cbn; lia.
Qed.
Lemma next_cseq_range : forall d, 1 <= next_cseq d <= 4294967295.
Proof. intros d. unfold next_cseq, next_local_cseq, u32_max. cbn [snd]. lia. Qed.

Ltac each_header :=
  repeat match goal with
  | H : In _ [] |- _ => destruct H
  | H : In _ (_ :: _) |- _ => destruct H as [H|H]; [injection H as <- <-|]
  end.
(** a whole request: [k] is its CSeq, [f] its random texts *)
Ltac good_tac f k :=
  unfold good_call, wellformed; cbn [method_wanted body_wanted headers_wanted contact_wanted q_method q_body];
  split; [|split; [reflexivity|split; [|split]]];
  [ split; [exists (fr_branch f); read_headers; reflexivity|];
    split; [eexists; read_headers; reflexivity|]; split; [eexists; read_headers; reflexivity|];
    split; [eexists; read_headers; reflexivity|];
    split; [exists k; split; [try lia|read_headers; reflexivity]|];
    split; [read_headers; reflexivity|]; split; [read_headers; reflexivity|];
    read_headers; rewrite ?llen_utf8; reflexivity
  | split; [reflexivity|read_headers; reflexivity]
  | intros ? ? ?; each_header; read_headers; reflexivity
  | read_headers; reflexivity ].

Lemma invite_good : forall u f t sdp o q, mk_invite u f t sdp o = Ret q -> good_call u (CInvite t sdp o) q.
Proof. intros u f t sdp o q H. apply assemble_eq in H. subst q. destruct sdp; cbn [body_bytes]; good_tac f 1. Qed.
Lemma modify_good : forall u f d up sdp q, mk_modify u f d up sdp = Ret q ->
  good_call u (if up then CUpdate d sdp else CReinvite d sdp) q.
Proof.
  intros u f d up sdp q H. apply assemble_eq in H. subst q. pose proof (next_cseq_range d).
  destruct up, sdp; cbn [body_bytes]; good_tac f (next_cseq d).
Qed.
Lemma prack_good : forall u f d k q c, mk_prack_rack u f d k = Ret q -> (exists i p, c = CPrack i p d) \/ (exists p, c = CPrackFrom p d) -> good_call u c q.
Proof.
  intros u f d k q c H Hc. apply assemble_eq in H. subst q. pose proof (next_cseq_range d).
  destruct Hc as [(i & p & ->)|(p & ->)]; good_tac f (next_cseq d).
Qed.

Lemma call_good : forall u f c u' q, perform u f c = (u', Ret (Some q)) -> good_call u c q.
Proof.
  intros u f c u' q H.
  destruct c as [t e ct b s|t|t sdp o|t b ct|t e ct b|t e n|t n|t ct b|r n|d|d r|d sdp|d sdp|d n w up sdp|d ct b|i p d|p d|d r|d r t|s st b|s st x];
    cbn [perform] in H.
  - injection H as _ H. apply lift_some in H. apply assemble_eq in H. subst q. good_tac f 1.
  - injection H as _ H. apply lift_some in H. apply assemble_eq in H. subst q. good_tac f 1.
  - injection H as _ H. apply lift_some in H. now apply (invite_good u f).
  - injection H as _ H. unfold mk_invite_body in H. destruct (short_body b && short_text MAX_CONTENT_TYPE ct); [|discriminate].
    match type of H with match push_all [] ?l with _ => _ end = _ => destruct (push_all [] l) as [hs|] eqn:E; [|discriminate] end.
    apply push_all_eq in E. cbn [app] in E. subst hs. unfold request_new in H.
    destruct (MAX_BODY_SIZE <? llen (utf8 b)); [discriminate|]. injection H as <-. good_tac f 1.
  - injection H as _ H. unfold mk_publish in H.
    destruct (short_text MAX_EVENT_NAME e && short_text MAX_CONTENT_TYPE ct && short_body b); [|discriminate].
    apply lift_some in H. apply assemble_eq in H. subst q. good_tac f 1.
  - injection H as _ H. apply lift_some in H. apply assemble_eq in H. subst q. good_tac f 1.
  - injection H as _ H. apply lift_some in H. apply add_header_eq in H as (q0 & H & ->). apply assemble_eq in H. subst q0.
    cbn [q_method q_uri q_headers q_body app]. good_tac f 1.
  - injection H as _ H. apply lift_some in H. apply assemble_eq in H. subst q. good_tac f 1.
  - unfold mk_register in H. destruct (remembered (u_raw r) (fr_tag f) (ua_tags u)) as [tags tag].
    destruct (remembered (u_raw r) (call_of f) (ua_calls u)) as [calls cl].
    pose proof (next_register_range (u_raw r) (ua_cseqs u)) as R.
    destruct (next_register_cseq (u_raw r) (ua_cseqs u)) as [cseqs k]. cbn [snd] in R.
    injection H as _ H. apply lift_some in H. apply assemble_eq in H. subst q. good_tac f k.
  - injection H as _ H. apply lift_some in H. apply assemble_eq in H. subst q. pose proof (next_cseq_range d). good_tac f (next_cseq d).
  - injection H as _ H. apply lift_some in H. apply add_header_eq in H as (q0 & H & ->). apply assemble_eq in H. subst q0.
    cbn [q_method q_uri q_headers q_body app]. pose proof (next_cseq_range d). good_tac f (next_cseq d).
  - injection H as _ H. apply lift_some in H. now apply (modify_good u f d false).
  - injection H as _ H. apply lift_some in H. now apply (modify_good u f d true).
  - injection H as _ H. apply lift_some in H. unfold mk_refresh in H.
    match type of H with match ?x with _ => _ end = _ => destruct x as [q0|] eqn:E; [|discriminate] end.
    apply add_header_eq in E as (q1 & E & ->). apply assemble_eq in E. subst q1. cbn [q_method q_uri q_headers q_body] in H.
    pose proof (next_cseq_range d).
    destruct up, sdp as [s|]; cbn [body_bytes] in *.
    all: match type of H with context [hcontains ?n ?l] => replace (hcontains n l) with false in H by (rewrite contains_get_all; read_headers; reflexivity) end.
    all: apply add_header_eq in H as (q1 & H & ->); injection H as <-; cbn [q_method q_uri q_headers q_body]; good_tac f (next_cseq d).
  - injection H as _ H. unfold mk_info in H. destruct (short_text MAX_CONTENT_TYPE ct && short_body b); [|discriminate].
    apply lift_some in H. apply assemble_eq in H. subst q. pose proof (next_cseq_range d). good_tac f (next_cseq d).
  - injection H as _ H. unfold mk_prack in H.
    destruct (header_of (q_headers i) (lit "CSeq")) as [c|]; [|discriminate].
    destruct (split_ws c) as [|n [|m r]]; try discriminate.
    destruct (parse_uint u32_max n) as [k|]; [|discriminate].
    destruct (header_of (p_headers p) (lit "RSeq")) as [rv|]; [|discriminate].
    destruct (parse_uint u32_max rv) as [rs|]; [|discriminate].
    apply lift_some in H. eapply prack_good; [exact H|eauto].
  - injection H as _ H. unfold mk_prack_from in H.
    destruct (header_of (p_headers p) (lit "RSeq")) as [rv|]; [|discriminate].
    destruct (parse_uint u32_max rv) as [rs|]; [|discriminate].
    destruct (header_of (p_headers p) (lit "CSeq")) as [c|]; [|discriminate].
    destruct (split_ws c) as [|n [|m r]]; try discriminate.
    apply lift_some in H. eapply prack_good; [exact H|eauto].
  - injection H as _ H. apply lift_some in H. apply assemble_eq in H. subst q. pose proof (next_cseq_range d). good_tac f (next_cseq d).
  - injection H as _ H. apply lift_some in H. apply assemble_eq in H. subst q. pose proof (next_cseq_range d). good_tac f (next_cseq d).
  - injection H as _ H. apply lift_some in H. unfold mk_notify in H. destruct (u32_max <=? sb_lcseq s) eqn:L; [discriminate|].
    assert (R : 1 <= sb_lcseq s + 1 <= 4294967295) by (unfold u32_max in L; lia).
    apply assemble_eq in H. subst q. destruct b; cbn [body_bytes]; good_tac f (sb_lcseq s + 1).
  - injection H as _ H. apply lift_some in H. unfold mk_reg_notify in H. destruct (u32_max <=? sb_lcseq s) eqn:L; [discriminate|].
    assert (R : 1 <= sb_lcseq s + 1 <= 4294967295) by (unfold u32_max in L; lia).
    apply assemble_eq in H. subst q. good_tac f (sb_lcseq s + 1).
Qed.

(** ** Where a request belongs *)
Lemma from_names : forall u o t, exists d, from_value u o t
  = d ++ lit "<" ++ u_raw (match o with Some x => x | None => match ua_from u with Some x => x | None => ua_local u end end) ++ lit ">;tag=" ++ t.
Proof.
  intros u o t. unfold from_value. cbv zeta. destruct (ua_display u) as [d|].
  - unfold named, tagged, angle. eexists (lit """" ++ escape_quoted d ++ lit """ "). rewrite <- !app_assoc. reflexivity.
  - exists []. unfold tagged, angle. rewrite <- !app_assoc. reflexivity.
Qed.
Lemma tagged_names : forall u t, names_tag (tagged u t) u t.
Proof. intros u t. exists []. unfold tagged, angle. rewrite <- !app_assoc. reflexivity. Qed.
Lemma dialog_from_names : forall u d, names_tag (dialog_from u d) (ua_local u) (di_local (d_id d)).
Proof.
  intros u d. unfold dialog_from. destruct (ua_display u) as [n|]; [|apply tagged_names].
  unfold named, tagged, angle. exists (lit """" ++ n ++ lit """ "). rewrite <- !app_assoc. reflexivity.
Qed.
Ltac alone_tac f tac :=
  unfold stands_alone; cbn [q_uri q_method sender];
  split; [reflexivity|]; split; [read_headers; reflexivity|]; split; [read_headers; reflexivity|];
  split; [read_headers; reflexivity|]; split; [read_headers; reflexivity|];
  eexists; split; [read_headers; reflexivity|]; tac.
Ltac build_inv H :=
  injection H as _ H; apply lift_some in H; apply assemble_eq in H; subst.
Lemma call_alone : forall u f c u' q t, perform u f c = (u', Ret (Some q)) -> target_outside c = Some t -> stands_alone u f c t q.
Proof.
  intros u f c u' q t0 H Ht.
  destruct c as [t e ct b s|t|t sdp o|t b ct|t e ct b|t e n|t n|t ct b|r n|d|d r|d sdp|d sdp|d n w up sdp|d ct b|i p d|p d|d r|d r t|s st b|s st x];
    try discriminate Ht; cbn [target_outside] in Ht; injection Ht as <-; cbn [perform] in H.
  - build_inv H. alone_tac f ltac:(apply tagged_names).
  - build_inv H. alone_tac f ltac:(apply tagged_names).
  - build_inv H. destruct sdp, o; alone_tac f ltac:(apply from_names).
  - injection H as _ H. unfold mk_invite_body in H. destruct (short_body b && short_text MAX_CONTENT_TYPE ct); [|discriminate].
    match type of H with match push_all [] ?l with _ => _ end = _ => destruct (push_all [] l) as [hs|] eqn:E; [|discriminate] end.
    apply push_all_eq in E. cbn [app] in E. subst hs. unfold request_new in H.
    destruct (MAX_BODY_SIZE <? llen (utf8 b)); [discriminate|]. injection H as <-. alone_tac f ltac:(apply from_names).
  - injection H as _ H. unfold mk_publish in H.
    destruct (short_text MAX_EVENT_NAME e && short_text MAX_CONTENT_TYPE ct && short_body b); [|discriminate].
    apply lift_some in H. apply assemble_eq in H. subst q. alone_tac f ltac:(apply from_names).
  - build_inv H. alone_tac f ltac:(apply from_names).
  - injection H as _ H. apply lift_some in H. apply add_header_eq in H as (q0 & H & ->). apply assemble_eq in H. subst q0.
    cbn [q_method q_uri q_headers q_body app]. alone_tac f ltac:(apply from_names).
  - build_inv H. alone_tac f ltac:(apply from_names).
Qed.
Ltac read_to := read_headers; unfold dialog_to, tagged, angle; rewrite <- ?app_assoc; reflexivity.
Ltac inside_tac tac :=
  unfold belongs_to; cbn [q_uri q_method];
  split; [reflexivity|]; split; [read_to|]; split; [read_headers; reflexivity|];
  split; [read_headers; reflexivity|];
  do 2 eexists; split; [read_headers; reflexivity|]; tac.
Lemma modify_inside : forall u f d up sdp q, mk_modify u f d up sdp = Ret q -> belongs_to d q.
Proof. intros u f d up sdp q H. apply assemble_eq in H. subst q. destruct up, sdp; inside_tac ltac:(apply dialog_from_names). Qed.
Lemma prack_inside : forall u f d k q, mk_prack_rack u f d k = Ret q -> belongs_to d q /\ once q "RAck" k.
Proof.
  intros u f d k q H. apply assemble_eq in H. subst q. split; [inside_tac ltac:(apply dialog_from_names)|]. read_headers. reflexivity.
Qed.
Lemma belongs_more : forall d m uri hs b n v,
  existsb (eq_ic n) [lit "To"; lit "Call-ID"; lit "CSeq"; lit "From"] = false ->
  belongs_to d (mkReq m uri hs b) -> belongs_to d (mkReq m uri (hs ++ [(n, v)]) b).
Proof.
  intros d m uri hs b n v Hn (A & B & C & D & w & u & E & F). cbn [existsb] in Hn. rewrite !orb_false_iff in Hn.
  destruct Hn as (N1 & N2 & N3 & N4 & _).
  assert (X : forall k x, eq_ic n (lit k) = false -> once (mkReq m uri hs b) k x -> once (mkReq m uri (hs ++ [(n, v)]) b) k x).
  { intros k x Hk Ho. unfold once in *. cbn [q_headers] in *. rewrite get_all_app, Ho, get_all_cons, Hk. reflexivity. }
  split; [exact A|]. split; [now apply X|]. split; [now apply X|]. split; [now apply X|]. exists w, u. split; [now apply X|exact F].
Qed.
Lemma call_inside : forall u f c u' q d, perform u f c = (u', Ret (Some q)) -> dialog_inside c = Some d -> belongs_to d q.
Proof.
  intros u f c u' q d0 H Ht.
  destruct c as [t e ct b s|t|t sdp o|t b ct|t e ct b|t e n|t n|t ct b|r n|d|d r|d sdp|d sdp|d n w up sdp|d ct b|i p d|p d|d r|d r t|s st b|s st x];
    try discriminate Ht; cbn [dialog_inside] in Ht; injection Ht as <-; cbn [perform] in H.
  - build_inv H. inside_tac ltac:(apply tagged_names).
  - injection H as _ H. apply lift_some in H. apply add_header_eq in H as (q0 & H & ->). apply assemble_eq in H. subst q0.
    cbn [q_method q_uri q_headers q_body app]. inside_tac ltac:(apply tagged_names).
  - injection H as _ H. apply lift_some in H. now apply (modify_inside u f d false sdp).
  - injection H as _ H. apply lift_some in H. now apply (modify_inside u f d true sdp).
  - injection H as _ H. apply lift_some in H. unfold mk_refresh in H.
    match type of H with match ?x with _ => _ end = _ => destruct x as [q0|] eqn:E; [|discriminate] end.
    apply add_header_eq in E as (q1 & E & ->). apply modify_inside in E. destruct q1 as [m uri hs b].
    cbn [q_method q_uri q_headers q_body] in H.
    assert (E2 := belongs_more d m uri hs b (lit "Session-Expires") (print_N n ++ lit ";refresher=" ++ w) eq_refl E).
    match type of H with (if ?x then _ else _) = _ => destruct x end; [injection H as <-; exact E2|].
    apply add_header_eq in H as (q1 & H & ->). injection H as <-. now apply belongs_more.
  - injection H as _ H. unfold mk_info in H. destruct (short_text MAX_CONTENT_TYPE ct && short_body b); [|discriminate].
    apply lift_some in H. apply assemble_eq in H. subst q. inside_tac ltac:(apply tagged_names).
  - injection H as _ H. unfold mk_prack in H.
    destruct (header_of (q_headers i) (lit "CSeq")) as [c|]; [|discriminate].
    destruct (split_ws c) as [|n [|m r]]; try discriminate.
    destruct (parse_uint u32_max n) as [k|]; [|discriminate].
    destruct (header_of (p_headers p) (lit "RSeq")) as [rv|]; [|discriminate].
    destruct (parse_uint u32_max rv) as [rs|]; [|discriminate].
    apply lift_some in H. now apply prack_inside in H.
  - injection H as _ H. unfold mk_prack_from in H.
    destruct (header_of (p_headers p) (lit "RSeq")) as [rv|]; [|discriminate].
    destruct (parse_uint u32_max rv) as [rs|]; [|discriminate].
    destruct (header_of (p_headers p) (lit "CSeq")) as [c|]; [|discriminate].
    destruct (split_ws c) as [|n [|m r]]; try discriminate.
    apply lift_some in H. now apply prack_inside in H.
  - build_inv H. inside_tac ltac:(apply tagged_names).
  - build_inv H. inside_tac ltac:(apply tagged_names).
Qed.
Lemma call_notifies : forall u f c u' q s, perform u f c = (u', Ret (Some q)) -> subscription_of c = Some s -> notifies s q.
Proof.
  intros u f c u' q s0 H Ht.
  destruct c as [t e ct b s|t|t sdp o|t b ct|t e ct b|t e n|t n|t ct b|r n|d|d r|d sdp|d sdp|d n w up sdp|d ct b|i p d|p d|d r|d r t|s st b|s st x];
    try discriminate Ht; cbn [subscription_of] in Ht; injection Ht as <-; cbn [perform] in H; injection H as _ H; apply lift_some in H.
  - unfold mk_notify in H. destruct (u32_max <=? sb_lcseq s) eqn:L; [discriminate|]. apply assemble_eq in H. subst q.
    unfold notifies; cbn [q_uri q_method]. destruct b;
      (split; [reflexivity|]; split; [read_to|]; split; [read_headers; reflexivity|]; split; [read_headers; reflexivity|];
       do 2 eexists; split; [read_headers; reflexivity|apply tagged_names]).
  - unfold mk_reg_notify in H. destruct (u32_max <=? sb_lcseq s) eqn:L; [discriminate|]. apply assemble_eq in H. subst q.
    unfold notifies; cbn [q_uri q_method].
    split; [reflexivity|]; split; [read_to|]; split; [read_headers; reflexivity|]; split; [read_headers; reflexivity|];
       do 2 eexists; split; [read_headers; reflexivity|apply tagged_names].
Qed.
(** only BYE says who the dialog says we are *)
Lemma bye_from : forall u f c u' q d, perform u f c = (u', Ret (Some q)) -> (c = CBye d \/ exists r, c = CByeReason d r) ->
  once q "From" (tagged (d_luri d) (di_local (d_id d))).
Proof.
  intros u f c u' q d H [->|(r & ->)]; cbn [perform] in H.
  - build_inv H. read_headers. reflexivity.
  - injection H as _ H. apply lift_some in H. apply add_header_eq in H as (q0 & H & ->). apply assemble_eq in H. subst q0.
    cbn [q_method q_uri q_headers q_body app]. read_headers. reflexivity.
Qed.

(** ** No panic on plain input *)
Definition clean (s : str) : bool := forallb (fun c => negb ((c =? 13) || (c =? 10) || (c =? 0))) s.
Lemma clean_app : forall a b, clean (a ++ b) = clean a && clean b.
Proof. intros. apply forallb_app. Qed.
Lemma plain_clean : forall mx s, plain_text mx s -> blen s <= mx /\ clean s = true.
Proof.
  intros mx s (A & B). split; [exact A|]. apply forallb_forall. intros c Hc. destruct (B c Hc) as (X & Y & Z). lia.
Qed.
Lemma clean_value : forall v, blen v <= 8192 -> clean v = true -> validate_header_value v = None.
Proof.
  intros v Hl Hc. unfold validate_header_value. replace (MAX_HEADER_VALUE_LENGTH <? blen v) with false by (unfold MAX_HEADER_VALUE_LENGTH; lia).
  assert (M : forall x, x = 13 \/ x = 10 \/ x = 0 -> mem x v = false).
  { intros x Hx. apply mem_false. intros Hi. unfold clean in Hc. rewrite forallb_forall in Hc. apply Hc in Hi. lia. }
  now rewrite !M by auto.
Qed.
Definition line_ok (h : str * str) : Prop := validate_header_name (fst h) = None /\ validate_header_value (snd h) = None.
Lemma push_all_ret : forall l acc, Forall line_ok l -> llen acc + llen l <= 200 -> push_all acc l = Ret (acc ++ l).
Proof.
  induction l as [|[n v] l IH]; intros acc F L; [cbn; now rewrite app_nil_r|].
  inversion F as [|? ? (A & B) F']; subst. cbn [fst snd] in *. cbn [push_all]. unfold hpush.
  assert (E1 : llen ((n, v) :: l) = llen l + 1) by (unfold llen; cbn [List.length]; lia).
  replace (MAX_HEADERS <=? llen acc) with false by (unfold MAX_HEADERS; lia).
  unfold header_new. rewrite A, B. rewrite IH.
  - now rewrite <- app_assoc.
  - exact F'.
  - unfold llen in *. rewrite app_length. cbn [List.length] in *. lia.
Qed.
Lemma assemble_ret : forall m u l b, Forall line_ok l -> llen l <= 200 -> llen b <= 10485760 -> exists q, assemble m u l b = Ret q.
Proof.
  intros m u l b F L B. unfold assemble. rewrite push_all_ret by (assumption || (cbn; lia)).
  unfold finish, request_new, MAX_BODY_SIZE. replace (10485760 <? llen b) with false by lia. eauto.
Qed.
Lemma number_small : forall n, n <= 4294967295 -> blen (print_N n) <= 10 /\ clean (print_N n) = true.
Proof.
  intros n Hn. split.
  - rewrite NumFacts.blen_ascii.
    + pose proof (print_N_length n 10 ltac:(cbn; lia) ltac:(lia)). unfold llen. lia.
    + apply forallb_forall. intros c Hc. apply print_N_digits in Hc. unfold is_ascii. lia.
  - apply forallb_forall. intros c Hc. apply print_N_digits in Hc. lia.
Qed.
Lemma escape_small : forall s, blen (escape_quoted s) <= 2 * blen s /\ (clean s = true -> clean (escape_quoted s) = true).
Proof.
  induction s as [|c s (IH & IC)]; [split; [cbn; lia|reflexivity]|].
  unfold escape_quoted in *. cbn [flat_map]. rewrite blen_app, clean_app.
  destruct ((c =? 92) || (c =? 34)) eqn:E; cbn [blen clean forallb].
  - assert (len_utf8 92 = 1 /\ len_utf8 c = 1) as (L1 & L2) by (split; [reflexivity|]; unfold len_utf8; replace (c <? 128) with true by lia; reflexivity).
    split; [lia|]. intros H. apply andb_prop in H as [Hc Hs]. rewrite (IC Hs). lia.
  - split; [lia|]. intros H. apply andb_prop in H as [Hc Hs]. rewrite (IC Hs), Hc. reflexivity.
Qed.
Lemma blen_ge : forall s, llen s <= blen s.
Proof.
  induction s as [|c s IH]; [reflexivity|]. cbn [blen]. rewrite llen_cons. unfold len_utf8.
  destruct (c <? 128), (c <? 2048), (c <? 65536); lia.
Qed.
Lemma upper_hex_ascii : forall d, d < 16 -> 48 <= upper_hex d <= 70.
Proof. intros d Hd. unfold upper_hex. destruct (d <? 10) eqn:E; lia. Qed.
Lemma utf8_byte : forall s b, is_str s = true -> In b (utf8 s) -> b < 256.
Proof.
  intros s b Hs Hb. unfold utf8 in Hb. apply in_flat_map in Hb as (c & Hc & Hb). unfold is_str in Hs. rewrite forallb_forall in Hs.
  apply Hs in Hc. unfold is_scalar, in_range in Hc.
  assert (c < 1114112) by lia. unfold Text.utf8_c in Hb.
  assert (c / 262144 < 5) by (apply N.div_lt_upper_bound; lia).
  pose proof (N.mod_lt c 64 ltac:(lia)). pose proof (N.mod_lt (c / 64) 64 ltac:(lia)). pose proof (N.mod_lt (c / 4096) 64 ltac:(lia)).
  revert Hb. destruct (c <? 128) eqn:E1; [intros [<-|[]]; lia|].
  destruct (c <? 2048) eqn:E2; intros Hb.
  { assert (c / 64 < 32) by (apply N.div_lt_upper_bound; lia). destruct Hb as [<-|[<-|[]]]; lia. }
  revert Hb. destruct (c <? 65536) eqn:E3; intros Hb.
  { assert (c / 4096 < 16) by (apply N.div_lt_upper_bound; lia). destruct Hb as [<-|[<-|[<-|[]]]]; lia. }
  destruct Hb as [<-|[<-|[<-|[<-|[]]]]]; lia.
Qed.
Lemma url_small : forall s, is_str s = true -> blen (url_encode s) <= 3 * blen s /\ (forall c, In c (url_encode s) -> 32 < c < 127).
Proof.
  intros s Hs. rewrite <- (llen_utf8 s). unfold url_encode.
  assert (B : forall b, In b (utf8 s) -> b < 256) by (intros b Hb; now apply (utf8_byte s)).
  revert B. generalize (utf8 s). intros l. induction l as [|b l IH]; intros Hb; [split; [reflexivity|intros ? []]|].
  destruct (IH (fun x H => Hb x (or_intror H))) as (L & A). clear IH. specialize (Hb b (or_introl eq_refl)). cbn [flat_map].
  rewrite blen_app, llen_cons.
  assert (X : blen (if unreserved b then [b] else [37; upper_hex (b / 16); upper_hex (b mod 16)]) <= 3
              /\ forall c, In c (if unreserved b then [b] else [37; upper_hex (b / 16); upper_hex (b mod 16)]) -> 32 < c < 127).
  { destruct (unreserved b) eqn:E.
    - assert (32 < b < 127).
      { unfold unreserved, is_alnum, is_alpha, is_upper, is_lower, is_digit, in_range in E. cbn [existsb lit] in E.
        change (lit "-_.~") with [45; 95; 46; 126] in E. cbn [existsb] in E. lia. }
      split; [cbn [blen]; unfold len_utf8; replace (b <? 128) with true by lia; lia|]. intros c [<-|[]]. lia.
    - pose proof (upper_hex_ascii (b / 16)) as U1. pose proof (upper_hex_ascii (b mod 16)) as U2.
      assert (b / 16 < 16) by (apply N.div_lt_upper_bound; lia). assert (b mod 16 < 16) by (apply N.mod_lt; lia).
      split.
      + cbn [blen]. unfold len_utf8. replace (upper_hex (b / 16) <? 128) with true by lia. replace (upper_hex (b mod 16) <? 128) with true by lia. cbn; lia.
      + intros c [<-|[<-|[<-|[]]]]; lia. }
  destruct X as (X1 & X2). split; [apply (N.le_trans _ (3 + 3 * llen l)); [apply N.add_le_mono; [exact X1|exact L]|lia]|]. intros c Hc. apply in_app_or in Hc as [Hc|Hc]; auto.
Qed.
Lemma url_clean : forall s, is_str s = true -> clean (url_encode s) = true.
Proof. intros s Hs. apply forallb_forall. intros c Hc. apply url_small in Hc; [lia|exact Hs]. Qed.

(** *** One tactic for a list of header lines *)
Ltac plain_hyps :=
  repeat match goal with
  | H : plain_text _ _ |- _ => apply plain_clean in H; destruct H
  | H : _ /\ _ |- _ => destruct H
  end.
Ltac lit_len :=
  repeat match goal with
  | |- context [blen (lit ?s)] => let x := eval vm_compute in (blen (lit s)) in change (blen (lit s)) with x
  end.
Ltac clean_tac :=
  rewrite ?clean_app; repeat (apply andb_true_intro; split); first [assumption | reflexivity | auto].
Ltac len_tac := rewrite ?blen_app; lit_len; lia.
Ltac line_tac :=
  split; [reflexivity|apply clean_value; cbn [snd]; [len_tac|clean_tac]].
Ltac open_lines :=
  unfold body_lines, opt_line, notify_lines; unfold via_line, max_forwards, agent_line, zero_length, length_line; unfold ln;
  unfold dialog_to, tagged, angle, call_of, branch_of, refer_to_replaces; cbn [app].
Lemma from_small : forall u o t, plain_client u -> (forall x, o = Some x -> plain_uri_text x) -> plain_text 256 t ->
  blen (from_value u o t) <= 2600 /\ clean (from_value u o t) = true.
Proof.
  intros u o t (A & _ & D & F & _) Ho Ht. apply plain_clean in Ht as (T1 & T2). unfold from_value. cbv zeta.
  set (x := match o with Some x => x | None => match ua_from u with Some x => x | None => ua_local u end end).
  assert (X : plain_uri_text x) by (unfold x; destruct o; [now apply Ho|]; destruct (ua_from u); [now apply F|exact A]).
  apply plain_clean in X as (X1 & X2). destruct (ua_display u) as [d|]; unfold named, tagged, angle.
  - cbn [plain_opt] in D. apply plain_clean in D as (D1 & D2). destruct (escape_small d) as (E1 & E2). specialize (E2 D2).
    split; [len_tac|clean_tac].
  - split; [len_tac|clean_tac].
Qed.
Lemma dialog_from_small : forall u d, plain_client u -> plain_dialog d ->
  blen (dialog_from u d) <= 2600 /\ clean (dialog_from u d) = true.
Proof.
  intros u d (A & _ & D & _) (_ & _ & _ & L & _). apply plain_clean in A, L. destruct A, L. unfold dialog_from.
  destruct (ua_display u) as [n|]; unfold named, tagged, angle.
  - cbn [plain_opt] in D. apply plain_clean in D as (D1 & D2). split; [len_tac|clean_tac].
  - split; [len_tac|clean_tac].
Qed.
Lemma weaken : forall a b s, plain_text a s -> a <= b -> plain_text b s.
Proof. intros a b s (A & B) H. split; [lia|exact B]. Qed.
Lemma body_len : forall s, body_fits s -> blen (print_N (blen s)) <= 10 /\ clean (print_N (blen s)) = true.
Proof. intros s H. apply number_small. unfold body_fits in H. lia. Qed.
Lemma lift_ret : forall o, (exists q, o = Ret q) -> exists r, lift o = Ret r.
Proof. intros o (q & ->). now exists (Some q). Qed.
Lemma add_ret : forall o n v, (exists q, o = Ret q /\ llen (q_headers q) < 200) -> line_ok (n, v) ->
  exists q, add_header o n v = Ret q.
Proof.
  intros o n v (q & -> & L) (A & B). cbn in A, B. cbn. unfold hpush. replace (MAX_HEADERS <=? llen (q_headers q)) with false by (unfold MAX_HEADERS; lia).
  unfold header_new. rewrite A, B. eauto.
Qed.
Lemma remembered_plain : forall k new m, plain_text 128 new -> (forall a b, In (a, b) m -> plain_text 128 b) -> plain_text 128 (snd (remembered k new m)).
Proof.
  intros k new m Hn Hm. unfold remembered. destruct (lookup str_eqb k m) as [v|] eqn:E; [|destruct (MAX_REGISTRARS <=? llen m); exact Hn].
  cbn [snd]. revert E. clear -Hm. induction m as [|[a b] m IH]; [discriminate|]. cbn. destruct (str_eqb k a).
  - intros [= <-]. apply (Hm a). now left.
  - apply IH. intros x y Hi. apply (Hm x). now right.
Qed.
Ltac lines := repeat (apply Forall_cons; [line_tac|]); apply Forall_nil.
Ltac ret_tac := apply assemble_ret; [open_lines; lines|vm_compute; discriminate|cbn [body_bytes]; rewrite ?llen_utf8; first [assumption | cbn; lia]].
Lemma modify_ret : forall u f d up sdp, plain_client u -> plain_fresh f -> plain_dialog d -> plain_opt body_fits sdp ->
  exists q, mk_modify u f d up sdp = Ret q /\ llen (q_headers q) < 199.
Proof.
  intros u f d up sdp Hu Hf Hd Hs.
  destruct (dialog_from_small u d Hu Hd) as (F1 & F2). destruct (number_small (next_cseq d)) as (N1 & N2); [apply next_cseq_range|].
  pose proof Hu as (UA & UB & _ & _ & UE & _). pose proof Hf as (FB & FT & FC). pose proof Hd as (DA & DB & DC & DD & DE).
  plain_hyps. unfold plain_uri_text in *. plain_hyps.
  assert (X : exists q, mk_modify u f d up sdp = Ret q).
  { unfold mk_modify. cbv zeta. destruct sdp as [s|]; cbn [plain_opt] in Hs.
    - destruct (body_len s Hs) as (B1 & B2). unfold body_fits in Hs.
      destruct up; (apply assemble_ret; [open_lines; lines|vm_compute; discriminate|cbn [body_bytes]; rewrite llen_utf8; exact Hs]).
    - destruct up; (apply assemble_ret; [open_lines; lines|vm_compute; discriminate|cbn; lia]). }
  destruct X as (q & E). exists q. split; [exact E|]. apply assemble_eq in E. subst q. cbn [q_headers]. destruct sdp, up; vm_compute; reflexivity.
Qed.
Lemma blen_rev : forall s, blen (rev s) = blen s.
Proof. induction s as [|c s IH]; [reflexivity|]. cbn [rev]. rewrite blen_app, IH. cbn [blen]. lia. Qed.
Lemma split_ws_aux_parts : forall s cur w, In w (split_ws_aux cur s) -> clean cur = true -> clean s = true ->
  blen w <= blen cur + blen s /\ clean w = true.
Proof.
  induction s as [|c s IH]; intros cur w Hi Hc Hs; cbn [split_ws_aux] in Hi.
  - destruct cur as [|x cur]; [destruct Hi|]. destruct Hi as [<-|[]]. rewrite blen_rev. split; [lia|].
    unfold clean in *. rewrite forallb_forall in *. intros y Hy. apply Hc. now apply in_rev.
  - unfold clean in Hs. cbn [forallb] in Hs. apply andb_prop in Hs as [H1 H2]. cbn [blen].
    destruct (is_ws c).
    + destruct cur as [|x cur].
      * destruct (IH [] w Hi eq_refl H2) as (A & B). cbn [blen] in A. split; [lia|exact B].
      * destruct Hi as [<-|Hi].
        -- rewrite blen_rev. split; [lia|]. unfold clean in *. rewrite forallb_forall in *. intros y Hy. apply Hc. now apply in_rev.
        -- destruct (IH [] w Hi eq_refl H2) as (A & B). cbn [blen] in A. split; [lia|exact B].
    + destruct (IH (c :: cur) w Hi) as (A & B); [unfold clean; cbn [forallb]; rewrite H1; exact Hc|exact H2|]. cbn [blen] in A. split; [lia|exact B].
Qed.
Lemma split_ws_parts : forall v w, In w (split_ws v) -> clean v = true -> blen w <= blen v /\ clean w = true.
Proof. intros v w Hi Hv. destruct (split_ws_aux_parts v [] w Hi eq_refl Hv) as (A & B). cbn [blen] in A. split; [lia|exact B]. Qed.
Lemma prack_ret : forall u f d k, plain_client u -> plain_fresh f -> plain_dialog d -> blen k <= 8192 -> clean k = true ->
  exists q, mk_prack_rack u f d k = Ret q.
Proof.
  intros u f d k Hu Hf Hd K1 K2.
  destruct (dialog_from_small u d Hu Hd) as (F1 & F2). destruct (number_small (next_cseq d)) as (N1 & N2); [apply next_cseq_range|].
  pose proof Hu as (UA & UB & _ & _ & UE & _). pose proof Hf as (FB & FT & FC). pose proof Hd as (DA & DB & DC & DD & DE).
  plain_hyps. unfold plain_uri_text in *. plain_hyps. unfold mk_prack_rack. ret_tac.
Qed.
Lemma short_plain : forall mx s, short_text mx s = true -> blen s <= mx /\ clean s = true.
Proof.
  intros mx s H. unfold short_text in H. apply andb_prop in H as [A B]. split; [lia|]. apply forallb_forall. intros c Hc.
  apply negb_true_iff in B. destruct ((c =? 13) || (c =? 10) || (c =? 0)) eqn:E; [|reflexivity]. exfalso.
  assert (existsb is_control s = true) by (apply existsb_exists; exists c; split; [exact Hc|]; unfold is_control, in_range; lia). congruence.
Qed.
Lemma plain_ok : forall u f c, plain_client u -> plain_fresh f -> plain_call c -> exists o, snd (perform u f c) = Ret o.
Proof.
  intros u f c Hu Hf Hc.
  pose proof (from_small u None (fr_tag f) Hu) as FS. specialize (FS ltac:(discriminate) (weaken 64 256 _ (proj1 (proj2 Hf)) ltac:(lia))).
  pose proof Hu as (UA & UB & _ & _ & UE & UT & UC). pose proof Hf as (FB & FT & FC).
  destruct FS as (FS1 & FS2). unfold plain_uri_text in *.
  destruct c as [t e ct b s|t|t sdp o|t b ct|t e ct b|t e n|t n|t ct b|r n|d|d r|d sdp|d sdp|d n w up sdp|d ct b|i p d|p d|d r|d r t|s st b|s st x];
    cbn [perform snd plain_call] in Hc |- *; unfold plain_uri_text in *.
  - destruct Hc as (T & E & C & S & B). destruct (body_len b B) as (B1 & B2). unfold body_fits in B. plain_hyps. apply lift_ret. unfold mk_unsolicited. ret_tac.
  - plain_hyps. apply lift_ret. unfold mk_options. ret_tac.
  - destruct Hc as (T & S & O). apply lift_ret.
    destruct (from_small u o (fr_tag f) Hu O (weaken 64 256 _ (proj1 (proj2 Hf)) ltac:(lia))) as (F1 & F2).
    plain_hyps. unfold mk_invite. destruct sdp as [s|]; cbn [plain_opt] in S.
    + destruct (body_len s S) as (B1 & B2). unfold body_fits in S. ret_tac.
    + ret_tac.
  - unfold mk_invite_body. destruct (short_body b && short_text MAX_CONTENT_TYPE ct) eqn:E; [|eauto].
    apply andb_prop in E as [E1 E2]. apply short_plain in E2 as (E2 & E3). unfold MAX_CONTENT_TYPE in E2.
    assert (B : body_fits b) by (unfold body_fits, short_body, UAC_MAX_BODY in *; lia). destruct (body_len b B) as (B1 & B2).
    plain_hyps. rewrite push_all_ret; [eauto|open_lines; lines|vm_compute; discriminate].
  - unfold mk_publish. destruct (short_text MAX_EVENT_NAME e && short_text MAX_CONTENT_TYPE ct && short_body b) eqn:E; [|eauto].
    apply andb_prop in E as [E E1]. apply andb_prop in E as [E3 E2]. apply short_plain in E2 as (E2 & E4). apply short_plain in E3 as (E3 & E5).
    unfold MAX_CONTENT_TYPE in E2. unfold MAX_EVENT_NAME in E3.
    assert (B : body_fits b) by (unfold body_fits, short_body, UAC_MAX_BODY in *; lia). destruct (body_len b B) as (B1 & B2). unfold body_fits in B.
    plain_hyps. apply lift_ret. ret_tac.
  - destruct Hc as (T & E & N). apply number_small in N as (N1 & N2). plain_hyps. apply lift_ret. unfold mk_subscribe. ret_tac.
  - destruct Hc as (T & N). apply number_small in N as (N1 & N2). plain_hyps. apply lift_ret. unfold mk_reg_subscribe.
    assert (X : exists q, mk_subscribe u f t (lit "reg") n = Ret q) by (unfold mk_subscribe; ret_tac).
    apply add_ret; [|split; reflexivity]. destruct X as (q & E). exists q. split; [exact E|]. apply assemble_eq in E. subst q. vm_compute. reflexivity.
  - destruct Hc as (T & C & B). destruct (body_len b B) as (B1 & B2). unfold body_fits in B. plain_hyps. apply lift_ret. unfold mk_message. ret_tac.
  - destruct Hc as (T & N). apply number_small in N as (N1 & N2). unfold mk_register.
    pose proof (remembered_plain (u_raw r) (fr_tag f) (ua_tags u) (weaken 64 128 _ FT ltac:(lia)) UC) as R1.
    pose proof (remembered_plain (u_raw r) (call_of f) (ua_calls u)) as R2.
    assert (PC : plain_text 128 (call_of f)).
    { unfold call_of. destruct FC as (C1 & C2). split; [rewrite blen_app; change (blen (lit "@localhost")) with 10; lia|].
      intros c Hi. apply in_app_or in Hi as [Hi|Hi]; [now apply C2|]. change (lit "@localhost") with [64;108;111;99;97;108;104;111;115;116] in Hi.
      cbn in Hi. lia. }
    specialize (R2 PC UT).
    pose proof (next_register_range (u_raw r) (ua_cseqs u)) as R3.
    destruct (remembered (u_raw r) (fr_tag f) (ua_tags u)) as [tags tag]. destruct (remembered (u_raw r) (call_of f) (ua_calls u)) as [calls cl].
    destruct (next_register_cseq (u_raw r) (ua_cseqs u)) as [cseqs k]. cbn [snd] in *.
    pose proof (from_small u None tag Hu ltac:(discriminate) (weaken 128 256 _ R1 ltac:(lia))) as (F1 & F2).
    destruct (number_small k) as (K1 & K2); [lia|]. plain_hyps. apply lift_ret. ret_tac.
  - destruct Hc as (DA & DB & DC & DD & DE). destruct (number_small (next_cseq d)) as (N1 & N2); [apply next_cseq_range|].
    unfold plain_uri_text in *. plain_hyps. apply lift_ret. unfold mk_bye. ret_tac.
  - destruct Hc as ((DA & DB & DC & DD & DE) & R). destruct (number_small (next_cseq d)) as (N1 & N2); [apply next_cseq_range|].
    unfold plain_uri_text in *. plain_hyps. apply lift_ret. unfold mk_bye_reason.
    assert (X : exists q, mk_bye u f d = Ret q) by (unfold mk_bye; ret_tac).
    apply add_ret; [|split; [reflexivity|apply clean_value; cbn [snd]; [lia|assumption]]].
    destruct X as (q & E). exists q. split; [exact E|]. apply assemble_eq in E. subst q. vm_compute. reflexivity.
  - destruct Hc as (D & S). apply lift_ret. destruct (modify_ret u f d false sdp Hu Hf D S) as (q & E & _). eauto.
  - destruct Hc as (D & S). apply lift_ret. destruct (modify_ret u f d true sdp Hu Hf D S) as (q & E & _). eauto.
  - destruct Hc as (D & S & N & W). apply number_small in N as (N1 & N2). apply plain_clean in W as (W1 & W2).
    apply lift_ret. destruct (modify_ret u f d up sdp Hu Hf D S) as (q & E & L). unfold mk_refresh.
    destruct (add_ret (mk_modify u f d up sdp) (lit "Session-Expires") (print_N n ++ lit ";refresher=" ++ w)) as (q2 & E2).
    { exists q. split; [exact E|lia]. }
    { line_tac. }
    rewrite E2. destruct (hcontains (lit "Supported") (q_headers q2)); [eauto|]. apply add_ret; [|split; reflexivity].
    exists q2. split; [reflexivity|]. apply add_header_eq in E2 as (q3 & E3 & ->). rewrite E in E3. injection E3 as <-. cbn [q_headers].
    unfold llen in *. rewrite app_length. cbn [List.length]. lia.
  - unfold mk_info. destruct (short_text MAX_CONTENT_TYPE ct && short_body b) eqn:E; [|eauto].
    apply andb_prop in E as [E2 E1]. apply short_plain in E2 as (E2 & E4). unfold MAX_CONTENT_TYPE in E2.
    assert (B : body_fits b) by (unfold body_fits, short_body, UAC_MAX_BODY in *; lia). destruct (body_len b B) as (B1 & B2). unfold body_fits in B.
    destruct Hc as (DA & DB & DC & DD & DE). destruct (number_small (next_cseq d)) as (N1 & N2); [apply next_cseq_range|].
    unfold plain_uri_text in *. plain_hyps. apply lift_ret. ret_tac.
  - destruct Hc as (D & P). unfold mk_prack.
    destruct (header_of (q_headers i) (lit "CSeq")) as [c|]; [|eauto]. specialize (P c eq_refl). apply plain_clean in P as (P1 & P2).
    destruct (split_ws c) as [|n [|m r]] eqn:Es; eauto.
    destruct (parse_uint u32_max n) as [k|] eqn:Ek; [|eauto].
    destruct (header_of (p_headers p) (lit "RSeq")) as [rv|]; [|eauto].
    destruct (parse_uint u32_max rv) as [rs|] eqn:Er; [|eauto]. apply lift_ret.
    destruct (split_ws_parts c m) as (M1 & M2); [rewrite Es; right; now left|exact P2|].
    assert (k <= 4294967295) as K by (revert Ek; apply parse_uint_range). assert (rs <= 4294967295) as R by (revert Er; apply parse_uint_range).
    apply number_small in K as (K1 & K2). apply number_small in R as (R1 & R2).
    apply prack_ret; [assumption|assumption|assumption|len_tac|clean_tac].
  - destruct Hc as (D & P). unfold mk_prack_from.
    destruct (header_of (p_headers p) (lit "RSeq")) as [rv|]; [|eauto].
    destruct (parse_uint u32_max rv) as [rs|] eqn:Er; [|eauto].
    destruct (header_of (p_headers p) (lit "CSeq")) as [c|]; [|eauto]. specialize (P c eq_refl). apply plain_clean in P as (P1 & P2).
    destruct (split_ws c) as [|n [|m r]] eqn:Es; eauto. apply lift_ret.
    destruct (split_ws_parts c m) as (M1 & M2); [rewrite Es; right; now left|exact P2|].
    destruct (split_ws_parts c n) as (N1 & N2); [rewrite Es; now left|exact P2|].
    assert (rs <= 4294967295) as R by (revert Er; apply parse_uint_range).
    apply number_small in R as (R1 & R2).
    apply prack_ret; [assumption|assumption|assumption|len_tac|clean_tac].
  - destruct Hc as (D & R). pose proof D as (DA & DB & DC & DD & DE). destruct (number_small (next_cseq d)) as (N1 & N2); [apply next_cseq_range|].
    unfold plain_uri_text in *. plain_hyps. apply lift_ret. unfold mk_refer. ret_tac.
  - destruct Hc as (D & R & T & S1 & S2 & S3). pose proof D as (DA & DB & DC & DD & DE). destruct T as (TA & TB & TC & TD & TE).
    destruct (number_small (next_cseq d)) as (N1 & N2); [apply next_cseq_range|].
    destruct (url_small _ S1) as (L1 & _). destruct (url_small _ S2) as (L2 & _). destruct (url_small _ S3) as (L3 & _).
    apply url_clean in S1, S2, S3.
    unfold plain_uri_text in *. plain_hyps. apply lift_ret. unfold mk_refer_replaces. ret_tac.
  - destruct Hc as ((SA & SB & SC & SD & SE & SF) & B). destruct (number_small (sb_lcseq s + 1)) as (N1 & N2); [lia|].
    unfold plain_uri_text in *. plain_hyps. apply lift_ret. unfold mk_notify. replace (u32_max <=? sb_lcseq s) with false by (unfold u32_max; lia).
    destruct b as [x|]; cbn [plain_opt] in B.
    + destruct (body_len x B) as (B1 & B2). unfold body_fits in B. destruct st; unfold notify_lines; cbn [sub_state_str]; ret_tac.
    + destruct st; unfold notify_lines; cbn [sub_state_str]; ret_tac.
  - destruct Hc as ((SA & SB & SC & SD & SE & SF) & B). destruct (number_small (sb_lcseq s + 1)) as (N1 & N2); [lia|].
    unfold plain_uri_text in *. plain_hyps. apply lift_ret. unfold mk_reg_notify. replace (u32_max <=? sb_lcseq s) with false by (unfold u32_max; lia).
    destruct (body_len x B) as (B1 & B2). unfold body_fits in B. destruct st; unfold notify_lines; cbn [sub_state_str]; ret_tac.
Qed.
