(** DHCP options and ENUM: C67, C113. *)
From Coq Require Import Arith NArith Bool String List Lia ZifyBool ZifyN ZifyNat.
Import ListNotations.
From Verif Require Import Base BaseFacts Text TextFacts Uri AnyUri Msg Dhcp DhcpSpec DhcpProofs.
Open Scope N_scope.
Open Scope list_scope.

(** ** C67: decoding *)
(** names put on the wire are read back *)
Theorem C67_names : forall g ns, ns <> [] -> Forall domain_name ns ->
  parse_option_120 g (0 :: flat_map (fun n => wire_name (labels_of n)) ns) = Ret (Some (map Domain ns)).
Proof.
  intros g ns Hn H. unfold parse_option_120. cbn [N.eqb]. apply parse_names_iff. exists (map labels_of ns). split; [intros E; apply map_eq_nil in E; contradiction|].
  split; [apply Forall_forall; intros x Hx; apply in_map_iff in Hx; destruct Hx as (n & <- & Hx); rewrite Forall_forall in H; destruct (H n Hx) as [_ H2]; split; [apply labels_nonempty|exact H2]|].
  split; [rewrite !flat_map_concat_map, map_map; reflexivity|]. rewrite map_map. apply map_ext_in. intros n Hx. rewrite Forall_forall in H. destruct (H n Hx) as [H1 _]. symmetry. now apply named_labels.
Qed.
Print Assumptions C67_names.
(** and addresses *)
Theorem C67_addresses : forall g l, l <> [] ->
  parse_option_120 g (1 :: flat_map address_bytes l) = Ret (Some (map ipv4_server l)) /\ parse_option_150 (flat_map address_bytes l) = Some l.
Proof.
  intros g l H. split; [|now apply parse_150_iff]. unfold parse_option_120. cbn [N.eqb Pos.eqb]. f_equal. apply parse_addresses_iff. exists l. now repeat split.
Qed.
Print Assumptions C67_addresses.
(** for any bytes whatever the reader ends, reads inside the data, and accepts exactly the well-formed *)
Theorem C67_total : forall g d, exists o, parse_option_120 g d = Ret o.
Proof.
  intros g [|e p]; [eexists; reflexivity|]. unfold parse_option_120. destruct (e =? 0); [apply parse_names_ret|]. destruct (e =? 1); eexists; reflexivity.
Qed.
Print Assumptions C67_total.
Theorem C67_exact : forall g d ss, parse_option_120 g d = Ret (Some ss) <->
  (exists names, names <> [] /\ Forall name_ok names /\ d = 0 :: flat_map wire_name names /\ ss = map (fun ls => Domain (join (lit ".") (map (lossy g) ls))) names) \/
  (exists l, l <> [] /\ d = 1 :: flat_map address_bytes l /\ ss = map ipv4_server l).
Proof.
  intros g d ss. unfold parse_option_120. split.
  - destruct d as [|e p]; [discriminate|]. destruct (e =? 0) eqn:E0.
    + intros H. apply parse_names_iff in H. destruct H as (names & H1 & H2 & -> & ->). apply N.eqb_eq in E0. subst e. left. exists names. now repeat split.
    + destruct (e =? 1) eqn:E1; [|discriminate]. intros H. injection H as H. apply parse_addresses_iff in H. destruct H as (l & H1 & -> & ->). apply N.eqb_eq in E1. subst e. right. exists l. now repeat split.
  - intros [(names & H1 & H2 & -> & ->)|(l & H1 & -> & ->)]; cbn [N.eqb Pos.eqb].
    + apply parse_names_iff. exists names. now repeat split.
    + f_equal. apply parse_addresses_iff. exists l. now repeat split.
Qed.
Print Assumptions C67_exact.
Theorem C67_150 : forall d l, parse_option_150 d = Some l <-> l <> [] /\ d = flat_map address_bytes l.
Proof. exact parse_150_iff. Qed.
Print Assumptions C67_150.
(** a server name is the text of the option *)
Theorem C67_66 : forall g s, is_str s = true -> s <> [] -> parse_option_66 g (utf8 s) = Some s.
Proof.
  intros g s H N. unfold parse_option_66, lossy. rewrite from_utf8_utf8 by assumption. destruct (utf8 s) as [|b r] eqn:E; [|reflexivity].
  exfalso. apply N. pose proof (from_utf8_utf8 s H) as F. rewrite E in F. now injection F.
Qed.
Print Assumptions C67_66.
Theorem C67_66_none : forall g d, parse_option_66 g d = None <-> d = [].
Proof. intros g [|b d]; split; try discriminate; reflexivity. Qed.
Print Assumptions C67_66_none.
(** the ENUM domain of a number: its digits backwards; it determines the number *)
Theorem C67_enum : forall n d, enum_to_domain n = Some d <->
  exists digits, digits <> [] /\ forallb is_digit digits = true /\ n = 43 :: digits /\ d = flat_map (fun c => [c; 46]) (rev digits) ++ lit "e164.arpa".
Proof. exact enum_iff. Qed.
Print Assumptions C67_enum.
Theorem C67_enum_distinct : forall n1 n2 d, enum_to_domain n1 = Some d -> enum_to_domain n2 = Some d -> n1 = n2.
Proof.
  intros n1 n2 d H1 H2. apply enum_iff in H1, H2. destruct H1 as (d1 & _ & _ & -> & E1), H2 as (d2 & _ & _ & -> & E2). f_equal. rewrite E1 in E2.
  apply pairs_inj in E2. rewrite <- (rev_involutive d1), E2. apply rev_involutive.
Qed.
Print Assumptions C67_enum_distinct.
(** every global number that was read has one *)
Theorem C67_tel : forall input t, tel_parse input = Some t -> t_global t = true -> exists d, tel_uri_to_enum_domain t = Some d /\ enum_to_domain (t_number t) = Some d.
Proof.
  intros input t H G. unfold tel_uri_to_enum_domain. rewrite G. cut (exists d, enum_to_domain (t_number t) = Some d); [intros (d & E); exists d; now split|].
  unfold tel_parse in H. destruct (strip_prefix (lit "tel:") input) as [rest|]; [|discriminate]. cbv zeta in H. set (num := trim (hd [] (split_on 59 rest))) in *.
  destruct (validate_number num) eqn:V; cbn [negb] in H; [|discriminate]. destruct (fold_opt _ _ _) as [[params ctx]|]; [|discriminate].
  destruct (negb (starts_plus num) && is_none ctx); [discriminate|]. destruct (starts_plus num && is_some ctx); [discriminate|]. injection H as <-. cbn [t_global t_number] in *. rewrite G.
  unfold starts_plus in G. unfold validate_number in V. destruct num as [|c r]; [discriminate|]. apply N.eqb_eq in G. subst c.
  destruct (_ <? _); [discriminate|]. destruct (existsb is_control _); [discriminate|]. cbn [N.eqb Pos.eqb] in V. apply andb_true_iff in V. destruct V as [V1 V2].
  eexists. apply enum_iff. exists (strip_seps r). split; [|split; [|split; [reflexivity|reflexivity]]].
  - apply existsb_exists in V2. destruct V2 as (x & X1 & X2). intros E. assert (In x (strip_seps r)) as Hin.
    { unfold strip_seps. apply filter_In. split; [exact X1|]. unfold visual_sep, is_digit, in_range in *. cbn. lia. }
    rewrite E in Hin. destruct Hin.
  - apply forallb_forall. intros x Hx. unfold strip_seps in Hx. apply filter_In in Hx. destruct Hx as [X1 X2]. rewrite forallb_forall in V1. specialize (V1 x X1).
    apply orb_true_iff in V1. destruct V1 as [V1|V1]; [exact V1|]. rewrite V1 in X2. discriminate.
Qed.
Print Assumptions C67_tel.
Example C67_case : let ns := [lit "sip.example.com"; lit "b" ++ [252] ++ lit "cher.example"] in
  ns <> [] /\ Forall domain_name ns /\ parse_option_120 (fun _ => []) (0 :: flat_map (fun n => wire_name (labels_of n)) ns) = Ret (Some (map Domain ns)).
Proof.
  cbv zeta. split; [discriminate|]. split; [|vm_compute; reflexivity].
  constructor; [|constructor; [|constructor]]; (split; [reflexivity|]); unfold labels_of; repeat constructor; vm_compute; lia.
Qed.
Example C67_case_bad : parse_option_120 (fun _ => []) [0; 64] = Ret None /\ parse_option_120 (fun _ => []) [0; 3; 97; 98] = Ret None /\ parse_option_120 (fun _ => []) [0; 1; 97] = Ret None.
Proof. repeat split; vm_compute; reflexivity. Qed.
Example C67_case_enum : exists t, tel_parse (lit "tel:+1-202-533-2600") = Some t /\ t_global t = true /\ tel_uri_to_enum_domain t = Some (lit "0.0.6.2.3.3.5.2.0.2.1.e164.arpa").
Proof. eexists. split; [vm_compute; reflexivity|]. split; [reflexivity|]. vm_compute. reflexivity. Qed.
(** a global number that was not read but made from its parts keeps its separators, and has no domain *)
Theorem C67_tel_refuted : exists t, tel_new (lit "+1-202-533-2600") true = Some t /\ t_global t = true /\ tel_uri_to_enum_domain t = None.
Proof. eexists. split; [vm_compute; reflexivity|]. split; [reflexivity|]. vm_compute. reflexivity. Qed.
Print Assumptions C67_tel_refuted.

(** ** C113: choosing and using an ENUM record *)
(** the best record for SIP, the first of those as good *)
Theorem C113_best : forall l r, select_best l = Some r ->
  exists l1 l2, filter is_sip_service l = l1 ++ r :: l2 /\ Forall (better r) l1 /\ Forall (as_good r) l2.
Proof. intros l r H. unfold select_best in H. pose proof (sort_best (filter_sip_records l)) as S. rewrite H in S. exact S. Qed.
Print Assumptions C113_best.
Theorem C113_none : forall l, select_best l = None <-> forall r, In r l -> eq_ic (en_service r) (lit "E2U+sip") = false.
Proof.
  intros l. unfold select_best. pose proof (sort_best (filter_sip_records l)) as S. unfold filter_sip_records in *. split.
  - intros H r Hr. rewrite H in S. destruct (eq_ic (en_service r) (lit "E2U+sip")) eqn:E; [|reflexivity]. assert (X : In r (filter is_sip_service l)) by (apply filter_In; now split). rewrite S in X. destruct X.
  - intros H. assert (E : filter is_sip_service l = []).
    { clear S. induction l as [|r l IH]; [reflexivity|]. cbn [filter]. unfold is_sip_service at 1. rewrite (H r (or_introl eq_refl)). apply IH. intros; apply H. now right. }
    now rewrite E.
Qed.
Print Assumptions C113_none.
(** the address is what stands between the second and third delimiter *)
Theorem C113_uri : forall r c p u rest a, c <> 92 -> is_ws c = false -> unbroken c p -> unbroken c u -> u <> [] ->
  en_regexp r = a ++ c :: p ++ c :: u ++ c :: rest -> forallb is_ws a = true -> extract_uri r = Some u.
Proof.
  intros r c p u rest a Hc Hw Hp Hu Hn E Ha. unfold extract_uri. rewrite E.
  assert (T : exists rest', trim (a ++ c :: p ++ c :: u ++ c :: rest) = c :: p ++ c :: u ++ c :: rest').
  { unfold trim, trim_by. assert (S : trim_start_by is_ws (a ++ c :: p ++ c :: u ++ c :: rest) = c :: p ++ c :: u ++ c :: rest).
    { unfold trim_start_by. clear E. induction a as [|x a IH]; cbn [app drop_while]; [now rewrite Hw|]. cbn [forallb] in Ha. apply andb_true_iff in Ha. destruct Ha as [Hx Ha]. rewrite Hx. now apply IH. }
    rewrite S. assert (K : forall pre t, exists t', trim_end_by is_ws (pre ++ c :: t) = pre ++ c :: t').
    { clear - Hw. intros pre t. induction pre as [|x pre (t' & IH)]; cbn [app trim_end_by].
      - destruct (trim_end_by is_ws t) as [|y t']; [rewrite Hw; exists []; reflexivity|eexists; reflexivity].
      - rewrite IH. destruct (pre ++ c :: t') as [|y w] eqn:Z; [destruct pre; discriminate|]. exists t'. cbn [app]. now rewrite <- Z. }
    destruct (K (c :: p ++ c :: u) rest) as (t' & Ht). exists t'. cbn [app] in Ht. rewrite <- !app_assoc in Ht. cbn [app] in Ht. exact Ht. }
  destruct T as (rest' & ->). rewrite (parts_unbroken c p [] _ Hc Hp). rewrite (parts_unbroken c u [] _ Hc Hu). cbn [app]. destruct u; [congruence|reflexivity].
Qed.
Print Assumptions C113_uri.
Example C113_case : let l := [mkEnum 100 20 (lit "u") (lit "E2U+sip") (lit "!^.*$!sip:b@example.com!") []; mkEnum 100 10 (lit "u") (lit "e2u+SIP") (lit "!^.*$!sip:a@example.com!") [];
     mkEnum 10 10 (lit "u") (lit "E2U+mailto") (lit "!^.*$!mailto:a@example.com!") []] in
  exists r, select_best l = Some r /\ unbroken 33 (lit "^.*$") /\ unbroken 33 (lit "sip:a@example.com") /\ extract_uri r = Some (lit "sip:a@example.com").
Proof.
  cbv zeta. eexists. split; [vm_compute; reflexivity|]. split; [cbn; repeat split; discriminate|]. split; [cbn; repeat split; discriminate|]. vm_compute. reflexivity.
Qed.
(** The expression is not applied: a back-reference to the number stays in the result as it is *)
Theorem C113_backref_refuted : exists r, en_regexp r = lit "!^\+44(.*)$!sip:\1@example.com!" /\ extract_uri r = Some (lit "sip:\1@example.com").
Proof. exists (mkEnum 1 1 (lit "u") (lit "E2U+sip") (lit "!^\+44(.*)$!sip:\1@example.com!") []). split; [reflexivity|]. vm_compute. reflexivity. Qed.
Print Assumptions C113_backref_refuted.
(** and the best record may be one that is not terminal, which has no address *)
Theorem C113_terminal_refuted : exists l r, select_best l = Some r /\ is_terminal r = false /\ extract_uri r = None /\ exists r', In r' l /\ is_sip_service r' = true /\ is_terminal r' = true /\ extract_uri r' = Some (lit "sip:a@example.com").
Proof.
  exists [mkEnum 1 1 [] (lit "E2U+sip") [] (lit "other.example."); mkEnum 2 1 (lit "u") (lit "E2U+sip") (lit "!^.*$!sip:a@example.com!") []]. eexists. split; [vm_compute; reflexivity|].
  split; [reflexivity|]. split; [vm_compute; reflexivity|]. eexists. split; [right; left; reflexivity|]. split; [vm_compute; reflexivity|]. split; vm_compute; reflexivity.
Qed.
Print Assumptions C113_terminal_refuted.
