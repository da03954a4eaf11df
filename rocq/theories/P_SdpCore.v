(** Session descriptions of sip-core (C148). *)
From Coq Require Import Arith NArith Bool String List Lia ZifyBool ZifyN ZifyNat.
Import ListNotations.
From Verif Require Import Base BaseFacts NumFacts TypedFacts SdpCore SdpCoreSpec SdpCoreProofs SdpCoreRead SdpCoreSound SdpCoreWrite.
Open Scope N_scope.
Open Scope list_scope.

(** C148: a session description that keeps the limits, written and read, is the
    same session description *)
Theorem C148_roundtrip : forall s, sound_session s -> at_most 50 (bd_zones (ss_body s)) -> sdp_parse (sdp_print s) = Some s.
Proof. intros s S Z. apply lines_back; [exact S|exact Z|]. unfold sdp_print. apply lines_print. exact (fine_session s S). Qed.
Print Assumptions C148_roundtrip.

(** C148: what is read keeps the limits, so it can be written and read again *)
Theorem C148_sound : forall t s, sdp_parse t = Some s -> sound_session s /\ (at_most 50 (bd_zones (ss_body s)) -> sdp_parse (sdp_print s) = Some s).
Proof. intros t s H. apply parsed_sound in H. split; [exact H|]. intros Z. now apply C148_roundtrip. Qed.
Print Assumptions C148_sound.

(** C148: lines may end in LF or CRLF, and blank lines do not matter *)
Definition crlf (t : str) : str := flat_map (fun c => if c =? 10 then [13; 10] else [c]) t.
Lemma split_shape : forall c s, exists l r, split_on c s = l :: r.
Proof. intros c s. destruct (split_on c s) as [|l r] eqn:E; [|now exists l, r]. destruct s as [|x s]; cbn [split_on] in E; [discriminate|]. destruct (x =? c); [discriminate|]. destruct (split_on c s); discriminate. Qed.
Lemma trim_more : forall l, trim_end_by (N.eqb 13) (l ++ [13]) = trim_end_by (N.eqb 13) l.
Proof. induction l as [|c l IH]; [reflexivity|]. cbn [app trim_end_by]. rewrite IH. reflexivity. Qed.
Lemma crlf_cons : forall c t, crlf (c :: t) = (if c =? 10 then [13; 10] else [c]) ++ crlf t.
Proof. reflexivity. Qed.
Lemma crlf_lines : forall t, map (trim_end_by (N.eqb 13)) (split_on 10 (crlf t)) = map (trim_end_by (N.eqb 13)) (split_on 10 t).
Proof.
  assert (G : forall t p, map (trim_end_by (N.eqb 13)) (match split_on 10 (crlf t) with l :: r => (p ++ l) :: r | [] => [p] end) = map (trim_end_by (N.eqb 13)) (match split_on 10 t with l :: r => (p ++ l) :: r | [] => [p] end)).
  { induction t as [|c t IH]; intros p; [reflexivity|]. rewrite crlf_cons. destruct (c =? 10) eqn:C.
    - change (split_on 10 ([13; 10] ++ crlf t)) with ([13] :: split_on 10 (crlf t)). cbn [split_on]. rewrite C. cbn [map]. rewrite trim_more, app_nil_r. f_equal. specialize (IH []). destruct (split_shape 10 (crlf t)) as (l & r & E1), (split_shape 10 t) as (l' & r' & E2). rewrite E1, E2 in *. exact IH.
    - cbn [app split_on]. rewrite C. specialize (IH (p ++ [c])). destruct (split_shape 10 (crlf t)) as (l & r & E1), (split_shape 10 t) as (l' & r' & E2). rewrite E1, E2 in *. rewrite <- !app_assoc in IH. exact IH. }
  intros t. specialize (G t []). destruct (split_shape 10 (crlf t)) as (l & r & E1), (split_shape 10 t) as (l' & r' & E2). rewrite E1, E2 in *. exact G.
Qed.
Lemma split_two : forall s t, split_on 10 (s ++ 10 :: t) = split_on 10 s ++ split_on 10 t.
Proof.
  induction s as [|c s IH]; intros t; [reflexivity|]. cbn [app split_on]. rewrite IH. destruct (c =? 10); [reflexivity|]. destruct (split_shape 10 s) as (l & r & E). rewrite E. reflexivity.
Qed.
Theorem C148_endings :
  (forall t, sdp_parse (crlf t) = sdp_parse t)
  /\ (forall a b, sdp_parse (a ++ [10; 10] ++ b) = sdp_parse (a ++ [10] ++ b))
  /\ (forall a, sdp_parse (a ++ [10]) = sdp_parse a).
Proof.
  assert (K : forall t u, sd_lines t = sd_lines u -> sdp_parse t = sdp_parse u) by (intros t u E; unfold sdp_parse; now rewrite E). split; [|split].
  - intros t. apply K. unfold sd_lines. now rewrite crlf_lines.
  - intros a b. apply K. unfold sd_lines. cbn [app]. rewrite !split_two. change (10 :: b) with ([] ++ 10 :: b). rewrite split_two. cbn [split_on]. rewrite !map_app, !filter_app. reflexivity.
  - intros a. apply K. unfold sd_lines. rewrite split_two, map_app, filter_app. cbn. now rewrite app_nil_r.
Qed.
Print Assumptions C148_endings.

(** C148: the lines are written in the order of RFC 4566: v o s i u e p c b t r
    z k a, then for each stream m i c b k a *)
Lemma order_any : forall letters l, (forall c, In c l -> False) -> in_order letters l.
Proof. intros letters [|c l] H; [constructor|]. exfalso. apply (H c). now left. Qed.
Lemma order_run : forall c letters l r, (forall x, In x l -> x = c) -> in_order letters r -> in_order (c :: letters) (l ++ r).
Proof.
  intros c letters l r H O. induction l as [|x l IH]; [now apply order_skip|]. cbn [app]. rewrite (H x) by now left. apply order_same. apply IH. intros y Hy. apply H. now right.
Qed.
Lemma letters_map : forall A (f : A -> str) c (l : list A), (forall a, letter (f a) = c) -> forall x, In x (map letter (map f l)) -> x = c.
Proof. intros A f c l H x Hx. rewrite map_map in Hx. apply in_map_iff in Hx as (a & <- & _). apply H. Qed.
Lemma body_order : forall b attrs, in_order (lit "iuepcbtrzka") (map letter (body_lines b attrs)).
Proof.
  intros b attrs. unfold body_lines. rewrite !map_app. repeat (apply order_run; [intros x Hx; try (eapply letters_map in Hx; [exact Hx|]; intros; reflexivity)|]).
  - unfold l_zones in Hx. destruct (flat_map _ _) in Hx; [destruct Hx|]. destruct Hx as [<-|[]]. reflexivity.
  - rewrite <- (app_nil_r (map letter (map l_attr attrs))). apply order_run; [|constructor]. apply letters_map. reflexivity.
Qed.
Lemma media_order : forall m, in_order (lit "micbka") (map letter (media_lines m)).
Proof.
  intros m. unfold media_lines. cbn [map]. apply (order_run 109 _ [109]); [intros x [<-|[]]; reflexivity|]. rewrite !map_app. repeat (apply order_run; [apply letters_map; reflexivity|]).
  rewrite <- (app_nil_r (map letter (map l_attr _))). apply order_run; [|constructor]. apply letters_map. reflexivity.
Qed.
Theorem C148_order : forall s, sound_session s -> exists head blocks,
  sd_lines (sdp_print s) = head ++ concat blocks
  /\ (exists rest, map letter head = lit "vos" ++ rest /\ in_order (lit "iuepcbtrzka") rest)
  /\ Forall2 (fun m block => exists l ls, block = l :: ls /\ p_media (skipn 2 l) = Some (started m) /\ letter l = 109 /\ in_order (lit "icbka") (map letter ls)) (ss_media s) blocks.
Proof.
  intros s S. exists ((lit "v=" ++ print_N (ss_version s)) :: l_origin (ss_origin s) :: (lit "s=" ++ ss_name s) :: body_lines (ss_body s) (session_attrs s)), (map media_lines (ss_media s)). split; [|split].
  - unfold sdp_print. rewrite lines_print by exact (fine_session s S). unfold session_lines, session_attrs. rewrite flat_map_concat_map. reflexivity.
  - exists (map letter (body_lines (ss_body s) (session_attrs s))). split; [reflexivity|]. apply body_order.
  - unfold sound_session in S. decompose [and] S. match goal with H : Forall sound_media _ |- _ => revert H end. generalize (ss_media s). intros ms F. induction F as [|m ms F1 F2 IH]; [constructor|]. cbn [map]. constructor; [|exact IH].
    destruct (media_first m F1) as (v & _ & E1 & E2). exists (109 :: 61 :: v), (tl (media_lines m)). split; [exact E2|]. split; [exact E1|]. split; [reflexivity|]. unfold media_lines. cbn [tl]. rewrite !map_app. repeat (apply order_run; [apply letters_map; reflexivity|]).
    rewrite <- (app_nil_r (map letter (map l_attr _))). apply order_run; [|constructor]. apply letters_map. reflexivity.
Qed.
Print Assumptions C148_order.

(** ** A session description with every kind of field *)
Definition call_session : session := mkSession 0
  (mkOrigin (lit "alice") (lit "2890844526") (lit "2890844527") (lit "IN") (lit "IP4") (lit "host.example.com")) (lit "A call of two people")
  (mkBody (Some (lit "weekly")) (Some (lit "http://example.com/s")) [lit "alice@example.com"] [lit "+44 171 100"] (Some (mkConn (lit "IN") (lit "IP4") (lit "192.0.2.1")))
     [mkBw (lit "AS") 128] [(2873397496, 2873404696)] [mkRepeat (lit "7d") (lit "1h") [lit "0"; lit "25h"]] [(2882844526, lit "-1h")] (Some (lit "prompt", None)) [(lit "tool", Some (lit "a: b"))])
  [(lit "LS", [lit "1"; lit "2"])] (Some (mkCaps 0 [mkCdsc 1 (lit "audio") (lit "RTP/AVP") [lit "0"]] [(CMin, lit "a=fmtp:0")]))
  [mkMedia (lit "audio") 49170 (Some 2) (lit "RTP/AVP") [lit "0"; lit "97"] (Some (lit "main")) None [mkBw (lit "TIAS") 64000] (Some (lit "clear", Some (lit "x:y")))
     [(lit "rtpmap", Some (lit "97 iLBC/8000")); (lit "sendrecv", None)] (Some (lit "1")) (Some (mkRtcp 53020 (Some (lit "IN", lit "IP4", lit "192.0.2.2")))) None].
Lemma sd_word : forall mx s, forallb (fun c => negb (is_ws c)) s = true -> s <> [] -> sd_text mx s = true -> word_ok mx s.
Proof. intros mx s A B C. apply wordy; [split; [exact B|]|exact C]. intros c Hc. rewrite forallb_forall in A. apply A in Hc. now apply negb_true_iff. Qed.
Example C148_example : sound_session call_session /\ at_most 50 (bd_zones (ss_body call_session))
  /\ sdp_print call_session = concat (map (fun l => l ++ [10]) [lit "v=0"; lit "o=alice 2890844526 2890844527 IN IP4 host.example.com"; lit "s=A call of two people"; lit "i=weekly"; lit "u=http://example.com/s"; lit "e=alice@example.com"; lit "p=+44 171 100"; lit "c=IN IP4 192.0.2.1"; lit "b=AS:128"; lit "t=2873397496 2873404696"; lit "r=7d 1h 0 25h"; lit "z=2882844526 -1h"; lit "k=prompt"; lit "a=tool:a: b"; lit "a=sqn:0"; lit "a=cdsc:1 audio RTP/AVP 0"; lit "a=cparmin:a=fmtp:0"; lit "a=group:LS 1 2"; lit "m=audio 49170/2 RTP/AVP 0 97"; lit "i=main"; lit "b=TIAS:64000"; lit "k=clear:x:y"; lit "a=mid:1"; lit "a=rtcp:53020 IN IP4 192.0.2.2"; lit "a=rtpmap:97 iLBC/8000"; lit "a=sendrecv"]).
Proof.
  assert (P : sdp_parse (sdp_print call_session) = Some call_session) by (vm_compute; reflexivity).
  split; [exact (proj1 (C148_sound _ _ P))|]. split; [unfold at_most; cbn; lia|]. vm_compute. reflexivity.
Qed.

(** C148: time zones over several z= lines are not counted together, so a text
    can be read whose session description is written as a text that cannot *)
Definition zone_line (n : nat) : str := lit "z=0" ++ spaced (List.repeat (lit "0") n) ++ [10].
Theorem C148_zones_refuted : exists t s, sdp_parse t = Some s /\ sdp_parse (sdp_print s) = None.
Proof.
  exists (concat (map (fun l => l ++ [10]) [lit "v=0"; lit "o=- 1 1 IN IP4 h"; lit "s=-"; lit "t=0 0"]) ++ zone_line 51 ++ zone_line 51). eexists. split; [vm_compute; reflexivity|vm_compute; reflexivity].
Qed.
Print Assumptions C148_zones_refuted.

(** C148: the repeat times are written behind all the times: that one belongs
    to the first of two times is lost *)
Theorem C148_repeats_refuted : exists a b s, a <> b /\ sdp_parse (concat (map (fun l => l ++ [10]) a)) = Some s /\ sdp_parse (concat (map (fun l => l ++ [10]) b)) = Some s
  /\ nth_error a 4 = Some (lit "t=1 2") /\ nth_error a 5 = Some (lit "r=7d 1h 0") /\ nth_error a 6 = Some (lit "t=3 4")
  /\ nth_error (sd_lines (sdp_print s)) 5 = Some (lit "t=3 4") /\ nth_error (sd_lines (sdp_print s)) 6 = Some (lit "r=7d 1h 0").
Proof.
  exists [lit "v=0"; lit "o=- 1 1 IN IP4 h"; lit "s=-"; lit "c=IN IP4 h"; lit "t=1 2"; lit "r=7d 1h 0"; lit "t=3 4"], [lit "v=0"; lit "o=- 1 1 IN IP4 h"; lit "s=-"; lit "c=IN IP4 h"; lit "t=1 2"; lit "t=3 4"; lit "r=7d 1h 0"]. eexists.
  split; [intros K; apply (f_equal (fun l => nth_error l 5)) in K; discriminate K|]. split; [vm_compute; reflexivity|]. repeat split; vm_compute; reflexivity.
Qed.
Print Assumptions C148_repeats_refuted.
