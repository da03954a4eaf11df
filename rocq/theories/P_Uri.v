(** Properties of SIP URIs: C56, C79. *)
From Coq Require Import NArith Bool String List Lia.
Import ListNotations.
From Verif Require Import Base BaseFacts Text TextFacts Uri UriProofs.
Open Scope N_scope.
Open Scope list_scope.

(** ** Specification vocabulary *)
(** same user, host, port, scheme, parameters and headers *)
Definition same_uri (a b : sip_uri) : Prop :=
  u_sips a = u_sips b /\ u_user a = u_user b /\ u_host a = u_host b /\ u_port a = u_port b
  /\ u_params a = u_params b /\ u_headers a = u_headers b.
(** the same host name, letter case aside *)
Definition same_uri_ic (a b : sip_uri) : Prop :=
  u_sips a = u_sips b /\ u_user a = u_user b /\ lower (u_host a) = lower (u_host b) /\ u_port a = u_port b
  /\ u_params a = u_params b /\ u_headers a = u_headers b.
(** no white space at either end *)
Definition trimmed (s : str) : Prop :=
  (forall c r, s = c :: r -> is_ws c = false) /\ (forall c r, s = r ++ [c] -> is_ws c = false).
Lemma trimmed_edge : forall s, trimmed s -> no_edge is_ws s.
Proof.
  intros s [A B]. split.
  - destruct s as [|c r]; [exact I|]. now apply (A c r).
  - destruct (rev s) as [|c r] eqn:E; [exact I|]. apply (B c (rev r)). rewrite <- (rev_involutive s), E. reflexivity.
Qed.

(** ** C56 *)
(** A parsed URI prints as the text it was parsed from, so the text parses
    back to the very same value. *)
Theorem C56_parsed_text : forall text u, parse_uri text = Some u ->
  u_raw u = text /\ parse_uri (u_raw u) = Some u.
Proof.
  intros text u H. destruct (parse_uri_inv text u H) as (_ & E & _). rewrite E. auto.
Qed.
Print Assumptions C56_parsed_text.

(** The full claim, "the text of every URI made through the API parses back to
    the same URI", is false ([C56_*_refuted] below).  What holds: for every URI
    parsed or made with [SipUri::new] and changed by any builder calls, the text
    parses back to the same scheme, user, host (letter case aside), port,
    parameters and headers, provided that the user (if any) is Unicode text
    without '%' and without white space at its ends, the parameter values
    contain no ';' or '?' and no white space at their ends, the text is at most
    2048 bytes long, and a URI made by [SipUri::new] from an IPv6 address went
    through at least one builder call that prints it again. *)
Theorem C56_roundtrip_partial : forall start ops u, uri_build start ops = Some u ->
  (forall h, start = UNew h -> ~ In 58 h \/ exists o, In o ops /\ o <> UWithoutHeaders) ->
  (forall x, u_user u = Some x -> is_str x = true /\ ~ In 37 x /\ trimmed x) ->
  (forall n v, In (n, Some v) (u_params u) -> ~ In 59 v /\ ~ In 63 v /\ trimmed v) ->
  (forall p, u_port u = Some p -> p <= 65535) ->
  blen (u_raw u) <= 2048 ->
  exists u', parse_uri (u_raw u) = Some u' /\ u_raw u' = u_raw u /\ same_uri_ic u' u.
Proof.
  intros start ops u H Hs Hu Hv Hp Hl.
  assert (I0 : exists u0, uri_begin start = Some u0 /\ fold_opt uri_step ops u0 = Some u).
  { unfold uri_build in H. destruct (uri_begin start) as [u0|]; [|discriminate]. now exists u0. }
  destruct I0 as (u0 & E0 & EF).
  assert (Iu : uri_inv u).
  { apply (fold_uri_inv ops u0 u EF). destruct start as [h|t]; cbn [uri_begin] in E0.
    - now apply (uri_new_inv h).
    - now apply (parse_uri_inv t). }
  assert (R : raw_ok u).
  { apply (fold_uri_raw ops u0 u EF). destruct start as [h|t]; cbn [uri_begin] in E0.
    - destruct (Hs h eq_refl) as [X|X]; [left|now right]. apply (uri_new_raw h u0 E0). now apply mem_false.
    - left. right. destruct (parse_uri_inv t u0 E0) as (_ & E & _). now rewrite E. }
  destruct R as [R|R].
  - assert (P : parse_uri (u_raw u) = Some (mkUri (u_raw u) (u_sips u) (u_user u) (lower (u_host u)) (u_port u) (u_params u) (u_headers u))).
    { rewrite R in *. apply print_parse; try assumption.
      - unfold plain_user. destruct (u_user u) as [x|]; [|exact I]. destruct (Hu x eq_refl) as (A & B & C).
        split; [assumption|]. split; [now apply mem_false|now apply trimmed_edge].
      - apply Forall_forall. intros [n v] Hi. unfold plain_param. cbn [snd]. destruct v as [v|]; [|exact I].
        destruct (Hv n v Hi) as (A & B & C). split; [now apply mem_false|]. split; [now apply mem_false|now apply trimmed_edge].
      - destruct (u_port u); [now apply Hp|exact I]. }
    eexists. split; [exact P|]. split; [reflexivity|]. repeat split. cbn. apply lower_idem.
  - exists u. split; [assumption|]. split; [reflexivity|]. repeat split.
Qed.
Print Assumptions C56_roundtrip_partial.

(** The hypotheses are met by a URI with everything in it. *)
Example C56_roundtrip_example :
  exists u, uri_build (UParse (lit "sips:al@old;lr?Subject=hi"))
              [UWithUser (lit "Alice Smith"); UWithHost (lit "2001:DB8::1"); UWithPort 5061; UWithParam (lit "Transport") (Some (lit "tls"))] = Some u
   /\ u_raw u = lit "sips:Alice Smith@[2001:DB8::1]:5061;lr;transport=tls?subject=hi"
   /\ (forall h, UParse (lit "sips:al@old;lr?Subject=hi") = UNew h -> False)
   /\ (forall x, u_user u = Some x -> is_str x = true /\ ~ In 37 x /\ trimmed x)
   /\ (forall n v, In (n, Some v) (u_params u) -> ~ In 59 v /\ ~ In 63 v /\ trimmed v)
   /\ (forall p, u_port u = Some p -> p <= 65535) /\ blen (u_raw u) <= 2048.
Proof.
  eexists. split; [vm_compute; reflexivity|]. split; [reflexivity|]. split; [discriminate|].
  assert (T : forall s, match s with c :: _ => is_ws c = false | [] => True end -> match rev s with c :: _ => is_ws c = false | [] => True end -> trimmed s).
  { intros s A B. split; intros c r ->; [exact A|]. rewrite rev_app_distr in B. exact B. }
  split; [|split; [|split]].
  - intros x E. injection E as <-. split; [reflexivity|]. split; [apply mem_false; reflexivity|]. apply T; reflexivity.
  - intros n v [E|[E|[]]]; [discriminate|]. injection E as <- <-. split; [apply mem_false; reflexivity|]. split; [apply mem_false; reflexivity|]. apply T; reflexivity.
  - intros p E. injection E as <-. lia.
  - vm_compute. discriminate.
Qed.

(** Why the full claim fails.  A user that holds a '%' is printed as it is and
    decoded again on the way back. *)
Theorem C56_percent_refuted :
  exists start ops u u', uri_build start ops = Some u /\ parse_uri (u_raw u) = Some u' /\ u_user u' <> u_user u.
Proof.
  exists (UParse (lit "sip:a%2541@h")), [UWithPort 5060]. eexists. eexists.
  split; [vm_compute; reflexivity|]. split; [vm_compute; reflexivity|]. vm_compute. discriminate.
Qed.
Print Assumptions C56_percent_refuted.
(** A parameter value may smuggle in another parameter. *)
Theorem C56_param_refuted :
  exists start ops u u', uri_build start ops = Some u /\ parse_uri (u_raw u) = Some u' /\ u_params u' <> u_params u.
Proof.
  exists (UNew (lit "h")), [UWithParam (lit "a") (Some (lit "x;lr"))]. eexists. eexists.
  split; [vm_compute; reflexivity|]. split; [vm_compute; reflexivity|]. vm_compute. discriminate.
Qed.
Print Assumptions C56_param_refuted.
(** The text of [SipUri::new("::1")] does not parse. *)
Theorem C56_ipv6_refuted :
  exists h u, uri_build (UNew h) [] = Some u /\ parse_uri (u_raw u) = None.
Proof.
  exists (lit "::1"). eexists. split; [vm_compute; reflexivity|]. vm_compute. reflexivity.
Qed.
Print Assumptions C56_ipv6_refuted.

(** ** C79 *)
(** No URI made through the API has a control character (so no CR or LF) in its
    text: it cannot end the header line it is written into. *)
Theorem C79_no_control : forall start ops u, uri_build start ops = Some u ->
  forall c, In c (u_raw u) -> is_control c = false.
Proof.
  intros start ops u H. unfold uri_build in H. destruct (uri_begin start) as [u0|] eqn:E0; [|discriminate].
  assert (A : uri_inv u0 /\ existsb is_control (u_raw u0) = false).
  { destruct start as [h|t]; cbn [uri_begin] in E0.
    - pose proof (uri_new_inv h u0 E0) as X. split; [assumption|]. unfold uri_new in E0. destruct (validate_host h) eqn:V; [|discriminate].
      injection E0 as <-. cbn [u_raw]. apply (existsb_app_false is_control (lit "sip:") h); [reflexivity|]. apply (class_control hostc); [|now apply host_chars].
      intros c Hc. apply hostc_facts in Hc. tauto.
    - destruct (parse_uri_inv t u0 E0) as (X & Y & _). split; [assumption|]. rewrite Y. unfold parse_uri in E0.
      destruct (existsb is_control t); [discriminate|reflexivity]. }
  assert (G : forall ops u0 u, fold_opt uri_step ops u0 = Some u -> uri_inv u0 -> existsb is_control (u_raw u0) = false -> existsb is_control (u_raw u) = false).
  { clear. induction ops as [|o ops IH]; intros u0 u H I0 C0; cbn [fold_opt] in H; [now injection H as <-|].
    destruct (uri_step u0 o) as [u1|] eqn:E; [|discriminate].
    assert (I1 : uri_inv u1) by now apply (uri_step_inv u0 o u1).
    apply (IH u1 u H I1). pose proof (raw_control u1 I1) as R.
    destruct o as [h| |n|p| |n v]; cbn [uri_step] in E.
    - destruct (validate_host h); [|discriminate]. injection E as <-. exact R.
    - injection E as <-. exact R.
    - destruct (validate_user n); [|discriminate]. injection E as <-. exact R.
    - destruct (validate_port p); [|discriminate]. injection E as <-. exact R.
    - destruct (u_headers u0); injection E as <-; [assumption|exact R].
    - destruct (MAX_PARAMS <=? _); [discriminate|]. destruct (negb (validate_param_name n)); [discriminate|].
      destruct (match v with Some v => _ | None => _ end); [discriminate|]. injection E as <-. exact R. }
  destruct A as [A B]. pose proof (G ops u0 u H A B) as C. intros c Hc. apply existsb_false in C. rewrite forallb_forall in C.
  specialize (C c Hc). now destruct (is_control c).
Qed.
Print Assumptions C79_no_control.
(** Every URI made through the API is within the documented limits: a non-empty
    host of at most 256 bytes, a non-empty user of at most 256 bytes with none of
    the delimiters "@;?/#[]", a port other than 0, at most 50 parameters and 50
    headers, each name present once. *)
Theorem C79_limits : forall start ops u, uri_build start ops = Some u ->
  u_host u <> [] /\ blen (u_host u) <= 256
  /\ (forall x, u_user u = Some x -> x <> [] /\ blen x <= 256 /\ forall c, In c (lit "@;?/#[]") -> ~ In c x)
  /\ u_port u <> Some 0
  /\ llen (u_params u) <= 50 /\ NoDup (map fst (u_params u))
  /\ llen (u_headers u) <= 50 /\ NoDup (map fst (u_headers u)).
Proof.
  intros start ops u H. unfold uri_build in H. destruct (uri_begin start) as [u0|] eqn:E0; [|discriminate].
  assert (Iu : uri_inv u).
  { apply (fold_uri_inv ops u0 u H). destruct start as [h|t]; cbn [uri_begin] in E0.
    - now apply (uri_new_inv h).
    - now apply (parse_uri_inv t). }
  destruct Iu as (Hu & Hh & Hp & (P1 & P2 & _) & (D1 & D2 & _)).
  assert (ND : forall V (m : list (str * V)), sorted_keys m -> NoDup (map fst m)).
  { clear. induction m as [|[k v] m IH]; intros S; [constructor|]. cbn [sorted_keys map fst] in *. destruct S as [S1 S2].
    constructor; [|auto]. intros Hi. specialize (S1 k Hi). now rewrite str_ltb_irrefl in S1. }
  split; [now apply host_chars|]. split.
  { unfold validate_host in Hh. destruct (u_host u); [discriminate|]. destruct (MAX_HOST_LENGTH <? _) eqn:L; [discriminate|].
    unfold MAX_HOST_LENGTH in L. apply N.ltb_ge in L. exact L. }
  split.
  { intros x E. rewrite E in Hu. unfold validate_user in Hu. destruct x as [|c x]; [discriminate|]. split; [discriminate|].
    destruct (MAX_USER_LENGTH <? _) eqn:L; [discriminate|]. split; [unfold MAX_USER_LENGTH in L; now apply N.ltb_ge in L|].
    destruct (existsb is_control (c :: x)); [discriminate|]. apply negb_true_iff in Hu. apply existsb_false in Hu. rewrite forallb_forall in Hu.
    intros d Hd Hi. specialize (Hu d Hi). apply negb_true_iff in Hu. apply existsb_false in Hu. rewrite forallb_forall in Hu.
    specialize (Hu d Hd). now rewrite N.eqb_refl in Hu. }
  split; [destruct (u_port u); congruence|]. auto.
Qed.
Print Assumptions C79_limits.
Example C79_example :
  uri_build (UNew (lit "h")) [UWithUser [97; 13; 10; 98]] = None
  /\ exists u, uri_build (UNew (lit "h")) [UWithUser (lit "ab"); UWithPort 5060] = Some u /\ u_raw u = lit "sip:ab@h:5060".
Proof. split; [reflexivity|]. eexists. split; [vm_compute; reflexivity|reflexivity]. Qed.

(** ** C91: a builder call changes only the part it names: every other part of
    the URI, and the order of its parameters, stays as it was. *)
Theorem C91_builders : forall u o u', uri_step u o = Some u' ->
  u_sips u' = u_sips u
  /\ (u_user u' = match o with UWithUser n => Some n | _ => u_user u end)
  /\ (u_host u' = match o with UWithHost h => h | _ => u_host u end)
  /\ (u_port u' = match o with UWithPort p => Some p | UWithoutPort => None | _ => u_port u end)
  /\ (u_headers u' = match o with UWithoutHeaders => [] | _ => u_headers u end)
  /\ match o with
     | UWithParam n v => bget (lower n) (u_params u') = Some v /\ forall k, k <> lower n -> bget k (u_params u') = bget k (u_params u)
     | _ => u_params u' = u_params u
     end.
Proof.
  intros u o u' H. destruct o as [h| |n|p| |n v]; cbn [uri_step] in H.
  - destruct (validate_host h); [|discriminate]. apply (f_equal (fun o => match o with Some x => x | None => u' end)) in H. cbv iota in H. subst u'. repeat split; reflexivity.
  - apply (f_equal (fun o => match o with Some x => x | None => u' end)) in H. cbv iota in H. subst u'. repeat split; reflexivity.
  - destruct (validate_user n); [|discriminate]. apply (f_equal (fun o => match o with Some x => x | None => u' end)) in H. cbv iota in H. subst u'. repeat split; reflexivity.
  - destruct (validate_port p); [|discriminate]. apply (f_equal (fun o => match o with Some x => x | None => u' end)) in H. cbv iota in H. subst u'. repeat split; reflexivity.
  - destruct (u_headers u) eqn:E.
    + injection H as <-. rewrite E. repeat split; reflexivity.
    + apply (f_equal (fun o => match o with Some x => x | None => u' end)) in H. cbv iota in H. subst u'. repeat split; reflexivity.
  - destruct (MAX_PARAMS <=? llen (u_params u)); [discriminate|]. destruct (negb (validate_param_name n)); [discriminate|].
    match type of H with (if ?b then _ else _) = _ => destruct b; [discriminate|] end.
    apply (f_equal (fun o => match o with Some x => x | None => u' end)) in H. cbv iota in H. subst u'.
    do 5 (split; [reflexivity|]). cbn [u_params rebuild]. split; [apply bget_bput|]. intros k Hk. now apply bget_bput_other.
Qed.
Print Assumptions C91_builders.
Example C91_example : exists u u', parse_uri (lit "sip:bob@h:5070;lr;transport=tcp") = Some u
  /\ uri_step u (UWithParam (lit "LR") (Some (lit "on"))) = Some u' /\ u_raw u' = lit "sip:bob@h:5070;lr=on;transport=tcp".
Proof. do 2 eexists. split; [vm_compute; reflexivity|]. split; vm_compute; reflexivity. Qed.
