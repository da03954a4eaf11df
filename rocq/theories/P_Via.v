(** Properties of Via headers (C54), token lists (C55) and of the Via of responses (C101). *)
From Coq Require Import NArith Bool String List Lia.
From Coq Require Import ZifyBool ZifyN ZifyNat.
Import ListNotations.
From Verif Require Import Base BaseFacts Headers Text Uri Msg Via ViaSpec ViaProofs.
Open Scope N_scope.
Open Scope list_scope.

(** ** C54 *)
(** What a parsed Via holds is what its text says: the protocol SIP/2.0, the transport
    and the sent-by separated by white space, and exactly the parameters written between
    semicolons (names matched whatever the letter case). *)
Theorem C54_reads : forall t v, via_parse t = Some v ->
  exists l sip a b c segs r,
    t = l ++ (a ++ sip ++ lit "/2.0/" ++ w_transport v ++ b ++ w_sent_by v ++ c) ++ flat_map (fun p => lit ";" ++ p) segs ++ r
    /\ eq_ic sip (lit "SIP") = true /\ blank l /\ blank a /\ blank b /\ b <> [] /\ blank c /\ blank r
    /\ (forall p, In p segs -> ~ In 59 p)
    /\ forall n x, via_param v n = Some x <-> exists p k, In p segs /\ says p k x /\ eq_ic k n = true.
Proof. exact via_parse_reads. Qed.
Print Assumptions C54_reads.

(** The text of a parsed Via parses to the same Via. *)
Theorem C54_parsed : forall t v, via_parse t = Some v -> via_parse (via_print v) = Some v.
Proof. intros t v H. destruct (via_parse_inv t v H). now apply print_parse_via. Qed.
Print Assumptions C54_parsed.

(** The full claim for Vias changed through the API is false ([C54_inject_refuted]); it
    holds when the values given contain no ';' and no white space at the ends. *)
Theorem C54_built_partial : forall s ops v, via_build s ops = Some v -> Forall op_plain ops ->
  via_parse (via_print v) = Some v.
Proof. intros s ops v H Ho. destruct (via_build_inv s ops v H) as [A B]. apply print_parse_via; auto. Qed.
Print Assumptions C54_built_partial.

(** Every Via made through the API is well formed. *)
Theorem C54_wellformed : forall s ops v, via_build s ops = Some v -> sound_via v.
Proof. intros s ops v H. apply via_inv_sound. now apply (via_build_inv s ops). Qed.
Print Assumptions C54_wellformed.

(** Setting a parameter changes that parameter and nothing else; adding one that is
    there already is refused. *)
Theorem C54_set : forall v n x v', via_set_param v n x = Some v' \/ via_with_param v n x = Some v' ->
  w_transport v' = w_transport v /\ w_sent_by v' = w_sent_by v
  /\ forall m, via_param v' m = if eq_ic m n then Some x else via_param v m.
Proof.
  intros v n x v' H. assert (E : v' = mkVia (w_transport v) (w_sent_by v) (Text.bput (lower n) x (w_params v))).
  { destruct H as [H|H]; [apply via_set_cases in H|apply via_with_cases in H]; tauto. }
  subst v'. split; [reflexivity|]. split; [reflexivity|]. intros m. apply via_put_get.
Qed.
Print Assumptions C54_set.
Theorem C54_no_duplicate : forall v n x, via_param v n <> None -> via_with_param v n x = None.
Proof.
  intros v n x H. destruct (via_with_param v n x) as [v'|] eqn:E; [|reflexivity]. apply via_with_cases in E. destruct E as (_ & E & _). unfold via_param in H. contradiction.
Qed.
Print Assumptions C54_no_duplicate.

(** A value with a semicolon given to [with_param] comes back as another parameter. *)
Theorem C54_inject_refuted : exists v v', via_build (VNew (lit "UDP") (lit "a")) [VWith (lit "branch") (Some (lit "x;rport"))] = Some v
  /\ via_parse (via_print v) = Some v' /\ via_param v (lit "rport") = None /\ via_param v' (lit "rport") = Some None.
Proof. eexists. eexists. split; [vm_compute; reflexivity|]. split; [vm_compute; reflexivity|]. split; vm_compute; reflexivity. Qed.
Print Assumptions C54_inject_refuted.

Example C54_example : exists v, via_build (VParse (lit " sip/2.0/TCP   [2001:db8::1]:5061 ; Branch = z9hG4bK7 ;rport; ")) [VSet (lit "RPORT") (Some (lit "9")); VWith (lit "ttl") (Some (lit "1"))] = Some v
  /\ via_print v = lit "SIP/2.0/TCP [2001:db8::1]:5061;branch=z9hG4bK7;rport=9;ttl=1" /\ Forall op_plain [VSet (lit "RPORT") (Some (lit "9")); VWith (lit "ttl") (Some (lit "1"))].
Proof.
  eexists. split; [vm_compute; reflexivity|]. split; [vm_compute; reflexivity|].
  assert (P : forall n, n <> 59 -> is_ws n = false -> plain (Some [n])).
  { intros n Hn Hw y [= <-]. split; [intros [X|[]]; contradiction|]. apply bare_edge. split; exact Hw. }
  constructor; [apply P; [discriminate|reflexivity]|]. constructor; [apply P; [discriminate|reflexivity]|constructor].
Qed.

(** ** C55 *)
(** A text is accepted exactly when its comma-separated pieces, trimmed, are at most 50
    tokens of at most 64 bytes, and those are the tokens of the list. *)
Theorem C55_reads : forall s l, tokens_parse s = Some l <->
  l = map trim (split_on 44 s) /\ llen l <= 50 /\ Forall (token 64) l.
Proof. exact tokens_parse_spec. Qed.
Print Assumptions C55_reads.
(** Every non-empty list made through the API prints to a text that parses to the same
    list; its tokens respect the limits. *)
Theorem C55_roundtrip_partial : forall s adds l, tl_build s adds = Some l ->
  (llen l <= 50 /\ Forall (token 64) l) /\ (l <> [] -> tokens_parse (tokens_print l) = Some l).
Proof.
  intros s adds l H. destruct (tl_build_inv s adds l H) as [A B]. split; [auto|]. intros Hn.
  destruct (tokens_print_split l Hn B) as (C & D & E). apply tokens_parse_spec. rewrite C. auto.
Qed.
Print Assumptions C55_roundtrip_partial.
(** The exception: the empty list prints as the empty text, which does not parse. *)
Theorem C55_empty_refuted : tl_build (TFrom []) [] = Some [] /\ tokens_parse (tokens_print []) = None.
Proof. split; reflexivity. Qed.
Print Assumptions C55_empty_refuted.
(** Building keeps the tokens given, in order; adding appends the token, trimmed. *)
Theorem C55_built : forall ts l adds, tokens_from ts = Some l ->
  l = ts /\ forall l', fold_opt tokens_add adds l = Some l' -> l' = ts ++ map trim adds.
Proof.
  intros ts l adds H. apply tokens_from_spec in H. destruct H as (-> & _). split; [reflexivity|]. clear.
  revert ts. induction adds as [|t adds IH]; intros ts l' H; cbn [fold_opt] in H; [injection H as <-; now rewrite app_nil_r|].
  destruct (tokens_add ts t) as [l1|] eqn:E; [|discriminate]. unfold tokens_add in E. apply token_push_spec in E. destruct E as (-> & _).
  rewrite (IH _ _ H), <- app_assoc. reflexivity.
Qed.
Print Assumptions C55_built.
Theorem C55_contains : forall l t, tokens_contains l t = true <-> exists x, In x l /\ eq_ic x t = true.
Proof. intros l t. unfold tokens_contains. apply existsb_exists. Qed.
Print Assumptions C55_contains.
Example C55_example : exists l, tl_build (TParse (lit " INVITE ,ACK")) [lit " bye "] = Some l /\ l <> [] /\ tokens_print l = lit "INVITE, ACK, bye"
  /\ tokens_contains l (lit "BYE") = true.
Proof. eexists. split; [vm_compute; reflexivity|]. split; [discriminate|]. split; vm_compute; reflexivity. Qed.

(** ** C101 *)
(** Before a response leaves, only its first Via line is changed, and in it only "rport"
    and "received": a bare rport gets the source port; received is the source address when
    rport was filled or the sent-by does not name that address (unless the client wrote a
    received itself, or the line has 20 parameters already). *)
Theorem C101_top_via_partial : forall hs ip port t v,
  hget (lit "Via") hs = Some t -> via_parse t = Some v -> address_text ip -> port <= 65535 ->
  exists a n b t' v', hs = a ++ (n, t) :: b /\ apply_via hs ip port = a ++ (n, t') :: b
    /\ eq_ic n (lit "Via") = true /\ (forall h, In h a -> eq_ic (fst h) (lit "Via") = false)
    /\ via_parse t' = Some v'
    /\ w_transport v' = w_transport v /\ w_sent_by v' = w_sent_by v
    /\ (forall m, eq_ic m (lit "rport") = false -> eq_ic m (lit "received") = false -> via_param v' m = via_param v m)
    /\ (via_param v (lit "rport") = Some None -> via_param v' (lit "rport") = Some (Some (print_N port)))
    /\ (via_param v (lit "rport") <> Some None -> via_param v' (lit "rport") = via_param v (lit "rport"))
    /\ (forall x, via_param v (lit "received") = Some x -> via_param v' (lit "received") = Some x)
    /\ (via_param v (lit "received") = None -> llen (w_params v) < 20 ->
        (via_param v (lit "rport") = Some None \/ ~ sent_from (w_sent_by v) ip) -> via_param v' (lit "received") = Some (Some ip))
    /\ (via_param v (lit "received") = None -> via_param v (lit "rport") <> Some None -> sent_from (w_sent_by v) ip ->
        via_param v' (lit "received") = None).
Proof.
  intros hs ip port t v Hg Hv Ha Hp. destruct (apply_via_spec hs ip port t v Hg Hv Ha Hp) as (a & n & b & t' & E1 & E2 & E3 & E4 & E5).
  destruct (via_parse_inv t v Hv) as [I0 P0]. destruct (fill_spec v ip port I0 P0 Ha Hp) as (_ & _ & _ & X).
  exists a, n, b, t', (fst (fill_via v ip port)). split; [exact E1|]. split; [exact E2|]. split; [exact E3|]. split; [exact E4|]. split; [exact E5|]. exact X.
Qed.
Print Assumptions C101_top_via_partial.
(** Responses without a readable Via are left alone. *)
Theorem C101_unreadable : forall hs ip port,
  (forall t, hget (lit "Via") hs = Some t -> via_parse t = None) -> apply_via hs ip port = hs.
Proof. intros hs ip port H. unfold apply_via. destruct (hget (lit "Via") hs) as [t|]; [|reflexivity]. now rewrite (H t eq_refl). Qed.
Print Assumptions C101_unreadable.
(** When two Vias share a line, the address is attached to the second one. *)
Theorem C101_joined_refuted : exists hs,
  hget (lit "Via") hs = Some (lit "SIP/2.0/UDP a;branch=1, SIP/2.0/UDP b")
  /\ hget (lit "Via") (apply_via hs (lit "192.0.2.1") 5060) = Some (lit "SIP/2.0/UDP a;branch=1, SIP/2.0/UDP b;received=192.0.2.1").
Proof. exists [(lit "Via", lit "SIP/2.0/UDP a;branch=1, SIP/2.0/UDP b")]. split; vm_compute; reflexivity. Qed.
Print Assumptions C101_joined_refuted.
(** A "received" written by the client survives although the request came from elsewhere. *)
Theorem C101_forged_refuted : exists hs,
  hget (lit "Via") hs = Some (lit "SIP/2.0/UDP a;received=203.0.113.9")
  /\ apply_via hs (lit "192.0.2.1") 5060 = hs.
Proof. exists [(lit "Via", lit "SIP/2.0/UDP a;received=203.0.113.9")]. split; vm_compute; reflexivity. Qed.
Print Assumptions C101_forged_refuted.
Lemma address_example : address_text (lit "192.0.2.1").
Proof.
  split; [discriminate|]. split; [vm_compute; discriminate|]. apply (proj1 (Forall_forall _ _)).
  assert (F : forallb (fun c => in_range 33 126 c && negb (c =? 59) && negb (c =? 91) && negb (c =? 93)) (lit "192.0.2.1") = true) by (vm_compute; reflexivity).
  apply Forall_forall. intros c Hc. rewrite forallb_forall in F. apply F in Hc. unfold in_range in Hc. lia.
Qed.
Example C101_example : exists t v,
  hget (lit "Via") [(lit "To", lit "x"); (lit "via", t); (lit "Via", lit "SIP/2.0/UDP z;rport")] = Some t /\ via_parse t = Some v
  /\ address_text (lit "192.0.2.1") /\ via_param v (lit "rport") = Some None
  /\ apply_via [(lit "To", lit "x"); (lit "via", t); (lit "Via", lit "SIP/2.0/UDP z;rport")] (lit "192.0.2.1") 5062
     = [(lit "To", lit "x"); (lit "via", lit "SIP/2.0/UDP h;branch=b;received=192.0.2.1;rport=5062"); (lit "Via", lit "SIP/2.0/UDP z;rport")].
Proof.
  exists (lit "SIP/2.0/UDP h;rport;branch=b"). eexists. split; [vm_compute; reflexivity|]. split; [vm_compute; reflexivity|]. split; [exact address_example|]. split; vm_compute; reflexivity.
Qed.
