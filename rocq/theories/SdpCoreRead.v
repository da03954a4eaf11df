(** [SdpSession::parse] reads back what [Display] writes. *)
From Coq Require Import Arith NArith Bool String List Lia ZifyBool ZifyN ZifyNat.
Import ListNotations.
From Verif Require Import Base BaseFacts NumFacts TypedFacts SdpCore SdpCoreSpec SdpCoreProofs.
Open Scope N_scope.
Open Scope list_scope.

(** ** The session lines *)
Definition body_step (after : bool) (l : str) (b : body) : option (bool * body) :=
  match l with c :: 61 :: v => if c =? 109 then None else body_line after c v b | _ => None end.
Lemma loop_step : forall after l b after' b' r, body_step after l b = Some (after', b') -> body_loop after (l :: r) b = body_loop after' r b'.
Proof.
  intros after l b after' b' r H. unfold body_step in H. destruct l as [|c [|e v]]; try discriminate. cbn [body_loop]. destruct (N.eq_dec e 61) as [->|NE].
  - destruct (c =? 109); [discriminate|]. rewrite H. reflexivity.
  - exfalso. destruct e as [|p]; [discriminate|]. repeat (destruct p as [p|p|]; try discriminate). now apply NE.
Qed.
Lemma collect : forall A (f : A -> str) (get : body -> list A) (put : body -> list A -> body) (P : A -> Prop) (Q : bool -> Prop) (mx : nat) flag,
  Q flag ->
  (forall x b after, Q after -> P x -> (List.length (get b ++ [x]) <= mx)%nat -> body_step after (f x) b = Some (flag, put b (get b ++ [x]))) ->
  (forall b l, get (put b l) = l) -> (forall b l l', put (put b l) l' = put b l') -> (forall b, put b (get b) = b) ->
  forall xs b r after, Q after -> Forall P xs -> (List.length (get b ++ xs) <= mx)%nat ->
    body_loop after (map f xs ++ r) b = body_loop (match xs with [] => after | _ => flag end) r (put b (get b ++ xs)).
Proof.
  intros A f get put P Q mx flag QF ST GP PP PG. induction xs as [|x xs IH]; intros b r after HQ H L.
  - rewrite app_nil_r, PG. reflexivity.
  - inversion H as [|? ? HP HX]; subst. cbn [map app]. rewrite (loop_step after (f x) b flag (put b (get b ++ [x]))).
    2: { apply ST; [exact HQ|exact HP|]. rewrite app_length in *. cbn [List.length] in *. lia. }
    rewrite IH; [|exact QF|exact HX|rewrite GP, <- app_assoc; exact L]. rewrite GP, PP, <- app_assoc. destruct xs; reflexivity.
Qed.
Definition always (b : bool) := True.
Lemma sized_ok : forall A (mx : N) (k : nat) (l : list A), (List.length l <= k)%nat -> mx = N.of_nat k -> sized mx l = Some l.
Proof. intros A mx k l H ->. unfold sized. rewrite guard_true; [reflexivity|]. unfold llen. lia. Qed.
Lemma step_i : forall v b after, text_ok 2048 v -> body_step after (lit "i=" ++ v) b = Some (false, with_info b v).
Proof. intros v b after H. apply text_iff in H. change (body_step after (lit "i=" ++ v) b) with (_ <- guard (sd_text 2048 v) ;; Some (false, with_info b v)). now rewrite H. Qed.
Lemma step_u : forall v b after, text_ok 2048 v -> body_step after (lit "u=" ++ v) b = Some (false, with_uri b v).
Proof. intros v b after H. apply text_iff in H. change (body_step after (lit "u=" ++ v) b) with (_ <- guard (sd_text 2048 v) ;; Some (false, with_uri b v)). now rewrite H. Qed.
Lemma step_c : forall c b after, sound_conn c -> body_step after (l_conn c) b = Some (false, with_conn b c).
Proof. intros c b after H. change (body_step after (l_conn c) b) with (x <- p_conn (skipn 2 (l_conn c)) ;; Some (false, with_conn b x)). now rewrite conn_back. Qed.
Lemma step_k : forall k b after, sound_key k -> body_step after (l_key k) b = Some (false, with_key b k).
Proof. intros c b after H. change (body_step after (l_key c) b) with (x <- p_key (skipn 2 (l_key c)) ;; Some (false, with_key b x)). now rewrite key_back. Qed.
Lemma run_e : forall xs b r after, Forall (text_ok 320) xs -> (List.length (bd_emails b ++ xs) <= 10)%nat ->
  body_loop after (map (fun t => lit "e=" ++ t) xs ++ r) b = body_loop (match xs with [] => after | _ => false end) r (with_emails b (bd_emails b ++ xs)).
Proof.
  intros xs b r after H L. apply (collect _ _ bd_emails with_emails (text_ok 320) always 10 false); try exact I; try exact H; try exact L; try reflexivity; [|now intros []].
  intros x b0 a0 _ P L0. change (body_step a0 (lit "e=" ++ x) b0) with (_ <- guard (sd_text 320 x) ;; l <- sized SD_EMAILS (bd_emails b0 ++ [x]) ;; Some (false, with_emails b0 l)). apply text_iff in P. rewrite P, (sized_ok _ _ 10) by (exact L0 || reflexivity). reflexivity.
Qed.
Lemma run_p : forall xs b r after, Forall (text_ok 32) xs -> (List.length (bd_phones b ++ xs) <= 10)%nat ->
  body_loop after (map (fun t => lit "p=" ++ t) xs ++ r) b = body_loop (match xs with [] => after | _ => false end) r (with_phones b (bd_phones b ++ xs)).
Proof.
  intros xs b r after H L. apply (collect _ _ bd_phones with_phones (text_ok 32) always 10 false); try exact I; try exact H; try exact L; try reflexivity; [|now intros []].
  intros x b0 a0 _ P L0. change (body_step a0 (lit "p=" ++ x) b0) with (_ <- guard (sd_text 32 x) ;; l <- sized SD_PHONES (bd_phones b0 ++ [x]) ;; Some (false, with_phones b0 l)). apply text_iff in P. rewrite P, (sized_ok _ _ 10) by (exact L0 || reflexivity). reflexivity.
Qed.
Lemma run_b : forall xs b r after, Forall sound_bw xs -> (List.length (bd_bw b ++ xs) <= 20)%nat ->
  body_loop after (map l_bw xs ++ r) b = body_loop (match xs with [] => after | _ => false end) r (with_bw b (bd_bw b ++ xs)).
Proof.
  intros xs b r after H L. apply (collect _ _ bd_bw with_bw sound_bw always 20 false); try exact I; try exact H; try exact L; try reflexivity; [|now intros []].
  intros x b0 a0 _ P L0. change (body_step a0 (l_bw x) b0) with (y <- p_bw (skipn 2 (l_bw x)) ;; l <- sized SD_BANDWIDTHS (bd_bw b0 ++ [y]) ;; Some (false, with_bw b0 l)). rewrite bw_back by exact P. cbn [bindo]. rewrite (sized_ok _ _ 20) by (exact L0 || reflexivity). reflexivity.
Qed.
Lemma run_t : forall xs b r after, Forall sound_timing xs -> (List.length (bd_timing b ++ xs) <= 10)%nat ->
  body_loop after (map l_timing xs ++ r) b = body_loop (match xs with [] => after | _ => true end) r (with_timing b (bd_timing b ++ xs)).
Proof.
  intros xs b r after H L. apply (collect _ _ bd_timing with_timing sound_timing always 10 true); try exact I; try exact H; try exact L; try reflexivity; [|now intros []].
  intros x b0 a0 _ P L0. change (body_step a0 (l_timing x) b0) with (y <- p_timing (skipn 2 (l_timing x)) ;; l <- sized SD_TIMINGS (bd_timing b0 ++ [y]) ;; Some (true, with_timing b0 l)). rewrite timing_back by exact P. cbn [bindo]. rewrite (sized_ok _ _ 10) by (exact L0 || reflexivity). reflexivity.
Qed.
Lemma run_r : forall xs b r, Forall sound_repeat xs -> (List.length (bd_repeats b ++ xs) <= 10)%nat ->
  body_loop true (map l_repeat xs ++ r) b = body_loop true r (with_repeats b (bd_repeats b ++ xs)).
Proof.
  intros xs b r H L. rewrite (collect _ l_repeat bd_repeats with_repeats sound_repeat (fun a => a = true) 10 true); try exact H; try exact L; try reflexivity; [now destruct xs| |now intros []].
  intros x b0 a0 -> P L0. change (body_step true (l_repeat x) b0) with (y <- p_repeat (skipn 2 (l_repeat x)) ;; l <- sized SD_REPEATS (bd_repeats b0 ++ [y]) ;; Some (true, with_repeats b0 l)). rewrite repeat_back by exact P. cbn [bindo]. rewrite (sized_ok _ _ 10) by (exact L0 || reflexivity). reflexivity.
Qed.
Lemma run_a : forall xs b r after, Forall sound_attr xs -> (List.length (bd_attrs b ++ xs) <= 100)%nat ->
  body_loop after (map l_attr xs ++ r) b = body_loop (match xs with [] => after | _ => false end) r (with_attrs b (bd_attrs b ++ xs)).
Proof.
  intros xs b r after H L. apply (collect _ _ bd_attrs with_attrs sound_attr always 100 false); try exact I; try exact H; try exact L; try reflexivity; [|now intros []].
  intros x b0 a0 _ P L0. change (body_step a0 (l_attr x) b0) with (y <- p_attr (skipn 2 (l_attr x)) ;; l <- sized SD_ATTRS (bd_attrs b0 ++ [y]) ;; Some (false, with_attrs b0 l)). rewrite attr_back by exact P. cbn [bindo]. rewrite (sized_ok _ _ 100) by (exact L0 || reflexivity). reflexivity.
Qed.
Lemma run_opt : forall A (f : A -> str) (put : body -> A -> body) (P : A -> Prop) o b r after,
  (forall x b a, P x -> body_step a (f x) b = Some (false, put b x)) -> opt_ok P o ->
  exists after', body_loop after (map f (opt_list o) ++ r) b = body_loop after' r (match o with Some x => put b x | None => b end).
Proof.
  intros A f put P [x|] b r after ST H; cbn [opt_list map app]; [|now exists after]. exists false. rewrite (loop_step after (f x) b false (put b x)); [reflexivity|]. apply ST. now apply H.
Qed.
Lemma run_z : forall zs b r after, Forall sound_zone zs -> at_most 50 zs -> exists after', body_loop after (l_zones zs ++ r) b = body_loop after' r (with_zones b (bd_zones b ++ zs)).
Proof.
  intros zs b r after S B. destruct zs as [|z zs].
  - exists after. cbn [l_zones flat_map app]. rewrite app_nil_r. now destruct b.
  - assert (E : exists l, l_zones (z :: zs) = [lit "z=" ++ l]) by (unfold l_zones; cbn [flat_map app]; eexists; reflexivity). destruct E as (l & E). exists false. rewrite E. cbn [app]. 
    rewrite (loop_step after (lit "z=" ++ l) b false (with_zones b (bd_zones b ++ (z :: zs)))); [reflexivity|].
    change (body_step after (lit "z=" ++ l) b) with (y <- p_zones (skipn 2 (lit "z=" ++ l)) ;; Some (false, with_zones b (bd_zones b ++ y))). now rewrite (zones_back (z :: zs) _ S B E).
Qed.
Lemma opt_i : forall after (o : option str) u e ph c bw t rp z k a r, opt_ok (text_ok 2048) o ->
  exists after', body_loop after (map (fun t => lit "i=" ++ t) (opt_list o) ++ r) (mkBody None u e ph c bw t rp z k a) = body_loop after' r (mkBody o u e ph c bw t rp z k a).
Proof. intros after o u e ph c bw t rp z k a r H. destruct (run_opt _ (fun t => lit "i=" ++ t) with_info (text_ok 2048) o (mkBody None u e ph c bw t rp z k a) r after step_i H) as (x & E). exists x. apply (eq_trans E). now destruct o. Qed.
Lemma opt_u : forall after (o : option str) i e ph c bw t rp z k a r, opt_ok (text_ok 2048) o ->
  exists after', body_loop after (map (fun t => lit "u=" ++ t) (opt_list o) ++ r) (mkBody i None e ph c bw t rp z k a) = body_loop after' r (mkBody i o e ph c bw t rp z k a).
Proof. intros after o i e ph c bw t rp z k a r H. destruct (run_opt _ (fun t => lit "u=" ++ t) with_uri (text_ok 2048) o (mkBody i None e ph c bw t rp z k a) r after step_u H) as (x & E). exists x. apply (eq_trans E). now destruct o. Qed.
Lemma opt_c : forall after (o : option conn) i u e ph bw t rp z k a r, opt_ok sound_conn o ->
  exists after', body_loop after (map l_conn (opt_list o) ++ r) (mkBody i u e ph None bw t rp z k a) = body_loop after' r (mkBody i u e ph o bw t rp z k a).
Proof. intros after o i u e ph bw t rp z k a r H. destruct (run_opt _ l_conn with_conn sound_conn o (mkBody i u e ph None bw t rp z k a) r after step_c H) as (x & E). exists x. apply (eq_trans E). now destruct o. Qed.
Lemma opt_k : forall after (o : option sdp_key) i u e ph c bw t rp z a r, opt_ok sound_key o ->
  exists after', body_loop after (map l_key (opt_list o) ++ r) (mkBody i u e ph c bw t rp z None a) = body_loop after' r (mkBody i u e ph c bw t rp z o a).
Proof. intros after o i u e ph c bw t rp z a r H. destruct (run_opt _ l_key with_key sound_key o (mkBody i u e ph c bw t rp z None a) r after step_k H) as (x & E). exists x. apply (eq_trans E). now destruct o. Qed.
Lemma trans_ex : forall A B (x y : A) (f : B -> A), x = y -> (exists b, y = f b) -> exists b, x = f b.
Proof. now intros A B x y f ->. Qed.
(** all the lines before the media *)
Lemma body_run : forall b attrs rest, 
  opt_ok (text_ok 2048) (bd_info b) -> opt_ok (text_ok 2048) (bd_uri b)
  -> at_most 10 (bd_emails b) -> Forall (text_ok 320) (bd_emails b) -> at_most 10 (bd_phones b) -> Forall (text_ok 32) (bd_phones b)
  -> opt_ok sound_conn (bd_conn b) -> at_most 20 (bd_bw b) -> Forall sound_bw (bd_bw b)
  -> bd_timing b <> [] -> at_most 10 (bd_timing b) -> Forall sound_timing (bd_timing b)
  -> at_most 10 (bd_repeats b) -> Forall sound_repeat (bd_repeats b) -> Forall sound_zone (bd_zones b) -> at_most 50 (bd_zones b) -> opt_ok sound_key (bd_key b)
  -> Forall sound_attr attrs -> at_most 100 attrs ->
  exists after, body_loop false (body_lines b attrs ++ rest) empty_body = body_loop after rest (with_attrs b attrs).
Proof.
  intros [inf uri em ph cn bw tm rp zn ky at0] attrs rest. cbn [bd_info bd_uri bd_emails bd_phones bd_conn bd_bw bd_timing bd_repeats bd_zones bd_key bd_attrs].
  intros H1 H2 H3 H4 H5 H6 H7 H8 H9 H10 H11 H12 H13 H14 H15 H15' H16 H17 H18. unfold body_lines. cbn [bd_info bd_uri bd_emails bd_phones bd_conn bd_bw bd_timing bd_repeats bd_zones bd_key bd_attrs]. rewrite <- !app_assoc. unfold empty_body.
  match goal with |- context [body_loop ?a (map ?f (opt_list inf) ++ ?r) (mkBody _ ?x_u ?x_e ?x_ph ?x_c ?x_bw ?x_t ?x_rp ?x_z ?x_k ?x_a)] => destruct (opt_i a inf x_u x_e x_ph x_c x_bw x_t x_rp x_z x_k x_a r H1) as (a_inf & E_inf); apply (trans_ex _ _ _ _ _ E_inf); clear E_inf end.
  match goal with |- context [body_loop ?a (map ?f (opt_list uri) ++ ?r) (mkBody ?x_i _ ?x_e ?x_ph ?x_c ?x_bw ?x_t ?x_rp ?x_z ?x_k ?x_a)] => destruct (opt_u a uri x_i x_e x_ph x_c x_bw x_t x_rp x_z x_k x_a r H2) as (a_uri & E_uri); apply (trans_ex _ _ _ _ _ E_uri); clear E_uri end.
  rewrite run_e; [|exact H4|exact H3]. unfold with_emails. cbn [bd_info bd_uri bd_emails bd_phones bd_conn bd_bw bd_timing bd_repeats bd_zones bd_key bd_attrs app].
  rewrite run_p; [|exact H6|exact H5]. unfold with_phones. cbn [bd_info bd_uri bd_emails bd_phones bd_conn bd_bw bd_timing bd_repeats bd_zones bd_key bd_attrs app].
  match goal with |- context [body_loop ?a (map ?f (opt_list cn) ++ ?r) (mkBody ?x_i ?x_u ?x_e ?x_ph _ ?x_bw ?x_t ?x_rp ?x_z ?x_k ?x_a)] => destruct (opt_c a cn x_i x_u x_e x_ph x_bw x_t x_rp x_z x_k x_a r H7) as (a_cn & E_cn); apply (trans_ex _ _ _ _ _ E_cn); clear E_cn end.
  rewrite run_b; [|exact H9|exact H8]. unfold with_bw. cbn [bd_info bd_uri bd_emails bd_phones bd_conn bd_bw bd_timing bd_repeats bd_zones bd_key bd_attrs app].
  rewrite run_t; [|exact H12|exact H11]. unfold with_timing. cbn [bd_info bd_uri bd_emails bd_phones bd_conn bd_bw bd_timing bd_repeats bd_zones bd_key bd_attrs app].
  replace (match tm with [] => match bw with [] => a_cn | _ => false end | _ => true end) with true by now destruct tm.
  rewrite run_r; [|exact H14|exact H13]. unfold with_repeats. cbn [bd_info bd_uri bd_emails bd_phones bd_conn bd_bw bd_timing bd_repeats bd_zones bd_key bd_attrs app].
  match goal with |- context [body_loop ?a (l_zones zn ++ ?r) ?b] => destruct (run_z zn b r a H15 H15') as (a4 & Ea4) end. apply (trans_ex _ _ _ _ _ Ea4). clear Ea4. unfold with_zones. cbn [bd_info bd_uri bd_emails bd_phones bd_conn bd_bw bd_timing bd_repeats bd_zones bd_key bd_attrs app].
  match goal with |- context [body_loop ?a (map ?f (opt_list ky) ++ ?r) (mkBody ?x_i ?x_u ?x_e ?x_ph ?x_c ?x_bw ?x_t ?x_rp ?x_z _ ?x_a)] => destruct (opt_k a ky x_i x_u x_e x_ph x_c x_bw x_t x_rp x_z x_a r H16) as (a_ky & E_ky); apply (trans_ex _ _ _ _ _ E_ky); clear E_ky end.
  rewrite run_a; [|exact H17|exact H18]. unfold with_attrs. cbn [bd_info bd_uri bd_emails bd_phones bd_conn bd_bw bd_timing bd_repeats bd_zones bd_key bd_attrs app]. eexists. reflexivity.
Qed.

(** ** The media lines *)
Definition media_step (l : str) (m : media) : option media :=
  match l with c :: 61 :: v => if c =? 109 then None else media_line c v m | _ => None end.
Lemma mloop_step : forall l m m' r, media_step l m = Some m' -> media_loop (l :: r) m = media_loop r m'.
Proof.
  intros l m m' r H. unfold media_step in H. destruct l as [|c [|e v]]; try discriminate. cbn [media_loop]. destruct (N.eq_dec e 61) as [->|NE].
  - destruct (c =? 109); [discriminate|]. rewrite H. reflexivity.
  - exfalso. destruct e as [|p]; [discriminate|]. repeat (destruct p as [p|p|]; try discriminate). now apply NE.
Qed.
Lemma mcollect : forall A (f : A -> str) (get : media -> list A) (put : media -> list A -> media) (P : A -> Prop) (mx : nat),
  (forall x b, P x -> (List.length (get b ++ [x]) <= mx)%nat -> media_step (f x) b = Some (put b (get b ++ [x]))) ->
  (forall b l, get (put b l) = l) -> (forall b l l', put (put b l) l' = put b l') -> (forall b, put b (get b) = b) ->
  forall xs b r, Forall P xs -> (List.length (get b ++ xs) <= mx)%nat -> media_loop (map f xs ++ r) b = media_loop r (put b (get b ++ xs)).
Proof.
  intros A f get put P mx ST GP PP PG. induction xs as [|x xs IH]; intros b r H L.
  - rewrite app_nil_r, PG. reflexivity.
  - inversion H as [|? ? HP HX]; subst. cbn [map app]. rewrite (mloop_step (f x) b (put b (get b ++ [x]))).
    2: { apply ST; [exact HP|]. rewrite app_length in *. cbn [List.length] in *. lia. }
    rewrite IH; [|exact HX|rewrite GP, <- app_assoc; exact L]. rewrite GP, PP, <- app_assoc. reflexivity.
Qed.
Lemma mstep_i : forall v m, text_ok 2048 v -> media_step (lit "i=" ++ v) m = Some (m_title m v).
Proof. intros v m H. apply text_iff in H. change (media_step (lit "i=" ++ v) m) with (_ <- guard (sd_text 2048 v) ;; Some (m_title m v)). now rewrite H. Qed.
Lemma mstep_c : forall c m, sound_conn c -> media_step (l_conn c) m = Some (m_conn m c).
Proof. intros c m H. change (media_step (l_conn c) m) with (x <- p_conn (skipn 2 (l_conn c)) ;; Some (m_conn m x)). now rewrite conn_back. Qed.
Lemma mstep_k : forall k m, sound_key k -> media_step (l_key k) m = Some (m_key m k).
Proof. intros k m H. change (media_step (l_key k) m) with (x <- p_key (skipn 2 (l_key k)) ;; Some (m_key m x)). now rewrite key_back. Qed.
Lemma mrun_b : forall xs m r, Forall sound_bw xs -> (List.length (md_bw m ++ xs) <= 20)%nat -> media_loop (map l_bw xs ++ r) m = media_loop r (m_bw m (md_bw m ++ xs)).
Proof.
  intros xs m r H L. apply (mcollect _ l_bw md_bw m_bw sound_bw 20); try exact H; try exact L; try reflexivity; [|now intros []].
  intros x b0 P L0. change (media_step (l_bw x) b0) with (y <- p_bw (skipn 2 (l_bw x)) ;; l <- sized SD_BANDWIDTHS (md_bw b0 ++ [y]) ;; Some (m_bw b0 l)). rewrite bw_back by exact P. cbn [bindo]. rewrite (sized_ok _ _ 20) by (exact L0 || reflexivity). reflexivity.
Qed.
Lemma mrun_a : forall xs m r, Forall sound_attr xs -> (List.length (md_attrs m ++ xs) <= 100)%nat -> media_loop (map l_attr xs ++ r) m = media_loop r (m_attrs m (md_attrs m ++ xs)).
Proof.
  intros xs m r H L. apply (mcollect _ l_attr md_attrs m_attrs sound_attr 100); try exact H; try exact L; try reflexivity; [|now intros []].
  intros x b0 P L0. change (media_step (l_attr x) b0) with (y <- p_attr (skipn 2 (l_attr x)) ;; l <- sized SD_ATTRS (md_attrs b0 ++ [y]) ;; Some (m_attrs b0 l)). rewrite attr_back by exact P. cbn [bindo]. rewrite (sized_ok _ _ 100) by (exact L0 || reflexivity). reflexivity.
Qed.
Lemma mrun_opt : forall A (f : A -> str) (put : media -> A -> media) (P : A -> Prop) o b r,
  (forall x b, P x -> media_step (f x) b = Some (put b x)) -> opt_ok P o ->
  media_loop (map f (opt_list o) ++ r) b = media_loop r (match o with Some x => put b x | None => b end).
Proof. intros A f put P [x|] b r ST H; cbn [opt_list map app]; [|reflexivity]. rewrite (mloop_step (f x) b (put b x)); [reflexivity|]. apply ST. now apply H. Qed.
(** the fields that the attributes hide *)
Definition unfinished (m : media) : media := mkMedia (md_type m) (md_port m) (md_count m) (md_proto m) (md_fmt m) (md_title m) (md_conn m) (md_bw m) (md_key m) (media_attrs m) None None None.
Definition started (m : media) : media := mkMedia (md_type m) (md_port m) (md_count m) (md_proto m) (md_fmt m) None None [] None [] None None None.
Definition attrs_fine (m : media) : Prop := Forall sound_attr (media_attrs m) /\ (List.length (media_attrs m) <= 100)%nat.
Lemma media_run : forall m rest, sound_media m -> attrs_fine m -> media_loop (tl (media_lines m) ++ rest) (started m) = media_loop rest (unfinished m).
Proof.
  intros m rest (_ & _ & _ & _ & _ & _ & _ & H1 & H2 & H3 & H4 & H5 & _) (H6 & H7). unfold media_lines. cbn [tl]. rewrite <- !app_assoc. unfold started, unfinished.
  destruct m as [ty po co pr fm ti cn bw ky at0 mi rt cp]. cbn [md_type md_port md_count md_proto md_fmt md_title md_conn md_bw md_key md_attrs md_mid md_rtcp md_caps] in *. set (ats := media_attrs _) in *.
  rewrite (mrun_opt _ (fun t => lit "i=" ++ t) m_title (text_ok 2048) ti _ _ mstep_i H1). replace (match ti with Some x => m_title _ x | None => _ end) with (mkMedia ty po co pr fm ti None [] None [] None None None) by now destruct ti.
  rewrite (mrun_opt _ l_conn m_conn sound_conn cn _ _ mstep_c H2). replace (match cn with Some x => m_conn _ x | None => _ end) with (mkMedia ty po co pr fm ti cn [] None [] None None None) by now destruct cn.
  rewrite mrun_b by assumption. unfold m_bw. cbn [md_type md_port md_count md_proto md_fmt md_title md_conn md_bw md_key md_attrs md_mid md_rtcp md_caps app].
  rewrite (mrun_opt _ l_key m_key sound_key ky _ _ mstep_k H5). replace (match ky with Some x => m_key _ x | None => _ end) with (mkMedia ty po co pr fm ti cn bw ky [] None None None) by now destruct ky.
  rewrite mrun_a by assumption. reflexivity.
Qed.
Lemma media_first : forall m, sound_media m -> exists v, hd [] (media_lines m) = 109 :: 61 :: v /\ p_media v = Some (started m) /\ media_lines m = (109 :: 61 :: v) :: tl (media_lines m).
Proof.
  intros m (A & B & C & D & E & F & G & _). exists (skipn 2 (hd [] (media_lines m))). split; [reflexivity|]. split; [now apply media_back|reflexivity].
Qed.
Lemma medias_run : forall ms m, sound_media m -> attrs_fine m -> Forall sound_media ms -> Forall attrs_fine ms ->
  media_loop (tl (media_lines m) ++ flat_map media_lines ms) (started m) = Some (map unfinished (m :: ms)).
Proof.
  induction ms as [|n ms IH]; intros m S A SS AA; rewrite media_run by assumption.
  - reflexivity.
  - inversion SS as [|? ? S1 S2]; inversion AA as [|? ? A1 A2]; subst. destruct (media_first n S1) as (v & _ & E1 & E2). cbn [flat_map]. rewrite E2. cbn [app media_loop]. change (109 =? 109) with true. cbv iota.
    rewrite E1. cbn [bindo]. rewrite IH by assumption. reflexivity.
Qed.
Lemma media_list_run : forall ms, Forall sound_media ms -> Forall attrs_fine ms -> at_most 50 ms -> media_list (flat_map media_lines ms) = Some (map unfinished ms).
Proof.
  intros [|m ms] S A L; [reflexivity|]. inversion S as [|? ? S1 S2]; inversion A as [|? ? A1 A2]; subst. destruct (media_first m S1) as (v & _ & E1 & E2). cbn [flat_map]. rewrite E2. cbn [app media_list]. rewrite E1. cbn [bindo].
  rewrite medias_run by assumption. cbn [bindo]. apply (sized_ok _ _ 50); [|reflexivity]. rewrite map_length. exact L.
Qed.

(** ** The attributes with fields of their own *)
Definition clean (names : list str) (l : list attribute) : Prop := forall a, In a l -> ~ In (fst a) names.
Lemma clean_cons : forall names a l, clean names (a :: l) -> ~ In (fst a) names /\ clean names l.
Proof. intros names a l H. split; [apply H; now left|]. intros x Hx. apply H. now right. Qed.
Lemma not_name : forall n x names, ~ In n names -> In x names -> str_eqb n x = false.
Proof. intros n x names H I. apply str_eqb_neq. intros ->. now apply H. Qed.
Lemma groups_clean : forall l r, clean [lit "group"] l -> take_groups (l ++ r) = (gr <- take_groups r ;; Some (fst gr, l ++ snd gr)).
Proof.
  induction l as [|a l IH]; intros r H; cbn [app].
  - destruct (take_groups r) as [(g, x)|]; reflexivity.
  - apply clean_cons in H as (H1 & H2). cbn [take_groups]. rewrite IH by exact H2. destruct (take_groups r) as [(g, x)|]; cbn [bindo]; [|reflexivity]. rewrite (not_name (fst a) (lit "group") _ H1) by now left. reflexivity.
Qed.
Lemma group_back : forall g, sound_group g -> p_group (fst g ++ spaced (snd g)) = Some g.
Proof.
  intros (a, ms) (A & B & C & D & E). cbn [fst snd] in *. unfold p_group. rewrite ws_spaced; [|now apply (word_like 128)|intros x Hx; now apply (forall_like 64 ms)].
  destruct ms as [|m ms]; [congruence|]. apply forall_text in E. apply most_llen in D. words. change SD_MID with 64. rewrite E. replace (llen (m :: ms) <=? SD_MIDS) with true by (unfold SD_MIDS; lia). cbn [andb guard bindo]. now rewrite B.
Qed.
Lemma groups_back : forall gs, Forall sound_group gs -> take_groups (map group_attr gs) = Some (gs, []).
Proof.
  induction gs as [|g gs IH]; intros H; [reflexivity|]. inversion H as [|? ? H1 H2]; subst. cbn [map take_groups]. rewrite IH by exact H2. cbn [bindo]. change (str_eqb (fst (group_attr g)) (lit "group")) with true. cbv iota. cbn [group_attr snd bindo]. rewrite group_back by exact H1. reflexivity.
Qed.
Lemma mid_clean : forall l, clean [lit "mid"] l -> take_mid l = Some (None, l).
Proof.
  induction l as [|a l IH]; intros H; [reflexivity|]. apply clean_cons in H as (H1 & H2). cbn [take_mid]. rewrite IH by exact H2. cbn [bindo]. rewrite (not_name (fst a) (lit "mid") _ H1) by now left. reflexivity.
Qed.
Lemma rtcp_clean : forall l, clean [lit "rtcp"] l -> take_rtcp l = Some (None, l).
Proof.
  induction l as [|a l IH]; intros H; [reflexivity|]. apply clean_cons in H as (H1 & H2). cbn [take_rtcp]. rewrite IH by exact H2. cbn [bindo]. rewrite (not_name (fst a) (lit "rtcp") _ H1) by now left. reflexivity.
Qed.
Lemma caps_clean : forall l r, clean cap_names l -> take_caps (l ++ r) = (tr <- take_caps r ;; let '(q, ds, ps, rest) := tr in Some (q, ds, ps, l ++ rest)).
Proof.
  induction l as [|a l IH]; intros r H; cbn [app].
  - destruct (take_caps r) as [(((q, ds), ps), x)|]; reflexivity.
  - apply clean_cons in H as (H1 & H2). cbn [take_caps]. rewrite IH by exact H2. destruct (take_caps r) as [(((q, ds), ps), x)|]; cbn [bindo]; [|reflexivity].
    unfold cap_names in H1. unfold cpar_kind. rewrite (not_name (fst a) (lit "sqn") _ H1), (not_name (fst a) (lit "cdsc") _ H1), (not_name (fst a) (lit "cpar") _ H1), (not_name (fst a) (lit "cparmin") _ H1), (not_name (fst a) (lit "cparmax") _ H1) by (cbn [In]; tauto). reflexivity.
Qed.
Lemma caps_nil : forall l, clean cap_names l -> take_caps l = Some (None, [], [], l).
Proof. intros l H. rewrite <- (app_nil_r l) at 1. rewrite caps_clean by exact H. cbn [take_caps bindo]. now rewrite app_nil_r. Qed.
Lemma cdsc_back : forall d, sound_cdsc d -> p_cdsc (cdsc_text d) = Some d.
Proof.
  intros [n m t fs] (A & B & C & D & E & F). cbn [cd_num cd_media cd_transport cd_formats] in *. unfold p_cdsc, cdsc_text. cbn [cd_num cd_media cd_transport cd_formats].
  rewrite ws_spaced; [|apply digits_like|intros x [<-|[<-|Hx]]; [now apply (word_like 32)|now apply (word_like 64)|now apply (forall_like 16 fs)]]. destruct fs as [|f fs]; [congruence|].
  rewrite parse_uint_print by (unfold u8_max; lia). cbn [bindo]. apply forall_text in F. apply most_llen in E. words. change SD_FORMAT with 16. rewrite F. replace (llen (f :: fs) <=? SD_FORMATS) with true by (unfold SD_FORMATS; lia). replace (n =? 0) with false by lia. reflexivity.
Qed.
Lemma caps_params : forall ps l rest, take_caps l = Some (None, [], [], rest) -> take_caps (map (fun p => (cpar_name (fst p), Some (snd p))) ps ++ l) = Some (None, [], ps, rest).
Proof.
  induction ps as [|(k, v) ps IH]; intros l rest H; [exact H|]. cbn [map app take_caps]. rewrite (IH _ _ H). cbn [bindo fst snd]. destruct k; reflexivity.
Qed.
Lemma caps_descs : forall ds l ps rest, Forall sound_cdsc ds -> take_caps l = Some (None, [], ps, rest) -> take_caps (map (fun d => (lit "cdsc", Some (cdsc_text d))) ds ++ l) = Some (None, ds, ps, rest).
Proof.
  induction ds as [|d ds IH]; intros l ps rest S H; [exact H|]. inversion S as [|? ? S1 S2]; subst. cbn [map app take_caps]. rewrite (IH _ _ _ S2 H). cbn [bindo fst snd]. change (str_eqb (lit "cdsc") (lit "sqn")) with false. change (str_eqb (lit "cdsc") (lit "cdsc")) with true. cbv iota. rewrite cdsc_back by exact S1. reflexivity.
Qed.
Lemma caps_back : forall c l, opt_ok sound_caps c -> clean cap_names l -> find_caps (caps_attrs c ++ l) = Some (c, l).
Proof.
  intros [c|] l S H; unfold find_caps; cbn [caps_attrs].
  - destruct (S c eq_refl) as (A & B & C & D & _). rewrite <- app_comm_cons, <- app_assoc. cbn [take_caps]. rewrite (caps_descs _ _ (cs_params c) l C).
    2: { apply caps_params. now apply caps_nil. }
    cbn [bindo fst snd]. change (str_eqb (lit "sqn") (lit "sqn")) with true. cbv iota. rewrite parse_uint_print by (unfold u8_max; lia). cbn [bindo].
    apply most_llen in B. apply most_llen in D. rewrite guard_true by (unfold SD_CDSCS, SD_CPARS; lia). cbn [bindo]. now destruct c.
  - cbn [app]. rewrite caps_nil by exact H. reflexivity.
Qed.
Lemma caps_after : forall c l, opt_ok sound_caps c -> clean cap_names l -> find_caps (l ++ caps_attrs c) = Some (c, l).
Proof.
  intros c l S H. assert (E := caps_back c [] S (fun a (f : In a []) => match f with end)). rewrite app_nil_r in E. unfold find_caps in *. rewrite caps_clean by exact H. destruct (take_caps (caps_attrs c)) as [(((q, ds), ps), x)|]; [|discriminate].
  cbn [bindo] in *. destruct (guard _) as [[]|]; [|discriminate]. cbn [bindo] in *. destruct q as [n|]; [|destruct (guard _); [|discriminate]; cbn [bindo] in *]; apply (f_equal (fun o => match o with Some p => p | None => (c, []) end)) in E; cbn [fst] in E; apply pair_equal_spec in E as (<- & ->); now rewrite app_nil_r.
Qed.
Lemma rtcp_back : forall r, sound_rtcp r -> p_rtcp (rtcp_text r) = Some r.
Proof.
  intros [p [((a, b), c)|]] (A & B); cbn [rc_port rc_addr] in *; unfold p_rtcp, rtcp_text; cbn [rc_port rc_addr].
  - destruct (B a b c eq_refl) as (C & D & E & _). rewrite ws_spaced; [|apply digits_like|intros x [<-|[<-|[<-|[]]]]; now apply (word_like 4096)]. rewrite parse_uint_print by (unfold u16_max; lia). reflexivity.
  - change (@nil N) with (spaced []). rewrite ws_spaced; [|apply digits_like|intros x []]. rewrite parse_uint_print by (unfold u16_max; lia). reflexivity.
Qed.
Lemma caps_names : forall c a, In a (caps_attrs c) -> In (fst a) cap_names.
Proof.
  intros [c|] a H; [|destruct H]. cbn [caps_attrs] in H. destruct H as [<-|H]; [now left|]. apply in_app_or in H as [H|H]; apply in_map_iff in H as (x & <- & _); cbn [fst]; unfold cap_names; cbn [In]; [tauto|]. destruct (fst x); cbn [cpar_name]; tauto.
Qed.
Lemma clean_sub : forall n m l, clean n l -> (forall x, In x m -> In x n) -> clean m l.
Proof. intros n m l H K a Ha Hm. apply (H a Ha). now apply K. Qed.
Lemma clean_app : forall n a b, clean n a -> clean n b -> clean n (a ++ b).
Proof. intros n a b A B x Hx. apply in_app_or in Hx as [Hx|Hx]; [now apply A|now apply B]. Qed.
Lemma clean_caps : forall c n, (forall x, In x cap_names -> ~ In x n) -> clean n (caps_attrs c).
Proof. intros c n H a Ha. apply H. now apply caps_names in Ha. Qed.
Ltac no_names := intros ? ?; unfold cap_names in *; cbn [In] in *; repeat match goal with H : _ \/ _ |- _ => destruct H as [H|H] end; subst; try contradiction; intros K; repeat destruct K as [K|K]; try discriminate K; try contradiction.
Lemma finish_back : forall m, sound_media m -> finish_media (unfinished m) = Some m.
Proof.
  intros m S. unfold sound_media in S. decompose [and] S. clear S. unfold finish_media, unfinished. cbn [md_type md_port md_count md_proto md_fmt md_title md_conn md_bw md_key md_attrs md_mid md_rtcp md_caps].
  assert (CL : clean (lit "mid" :: lit "rtcp" :: cap_names) (md_attrs m)) by assumption.
  assert (E1 : take_mid (media_attrs m) = Some (md_mid m, map (fun r => (lit "rtcp", Some (rtcp_text r))) (opt_list (md_rtcp m)) ++ caps_attrs (md_caps m) ++ md_attrs m)).
  { unfold media_attrs. set (rest := map (fun r => (lit "rtcp", Some (rtcp_text r))) (opt_list (md_rtcp m)) ++ caps_attrs (md_caps m) ++ md_attrs m).
    assert (C : clean [lit "mid"] rest).
    { unfold rest. apply clean_app; [|apply clean_app].
      - intros a Ha. apply in_map_iff in Ha as (x & <- & _). cbn [fst]. intros [K|[]]. discriminate.
      - apply clean_caps. no_names.
      - apply (clean_sub _ _ _ CL). intros x [<-|[]]. now left. }
    destruct (md_mid m) as [v|]; cbn [opt_list map app]; [|now apply mid_clean]. cbn [take_mid]. rewrite mid_clean by exact C. reflexivity. }
  rewrite E1. cbn [bindo fst snd].
  assert (CC : clean cap_names (md_attrs m)) by (apply (clean_sub _ _ _ CL); intros x Hx; right; now right).
  assert (E2 : find_caps (map (fun r => (lit "rtcp", Some (rtcp_text r))) (opt_list (md_rtcp m)) ++ caps_attrs (md_caps m) ++ md_attrs m) = Some (md_caps m, map (fun r => (lit "rtcp", Some (rtcp_text r))) (opt_list (md_rtcp m)) ++ md_attrs m)).
  { assert (E := caps_back (md_caps m) (md_attrs m) ltac:(assumption) CC). unfold find_caps in *. rewrite caps_clean.
    2: { intros a Ha. apply in_map_iff in Ha as (x & <- & _). cbn [fst]. unfold cap_names. intros K. repeat destruct K as [K|K]; try discriminate K; contradiction. }
    destruct (take_caps (caps_attrs (md_caps m) ++ md_attrs m)) as [(((q, ds), ps), x)|]; [|discriminate].
    cbn [bindo] in *. destruct (guard ((llen ds <=? SD_CDSCS) && (llen ps <=? SD_CPARS))) as [[]|]; [|discriminate]. cbn [bindo] in *. destruct q as [n|]; [|destruct (guard _); [|discriminate]; cbn [bindo] in *]; apply (f_equal (fun o => match o with Some p => p | None => (None, []) end)) in E; cbn [fst] in E; apply pair_equal_spec in E as (<- & ->); reflexivity. }
  rewrite E2. cbn [bindo fst snd].
  assert (E3 : take_rtcp (map (fun r => (lit "rtcp", Some (rtcp_text r))) (opt_list (md_rtcp m)) ++ md_attrs m) = Some (md_rtcp m, md_attrs m)).
  { assert (C : clean [lit "rtcp"] (md_attrs m)) by (apply (clean_sub _ _ _ CL); intros x [<-|[]]; right; now left).
    destruct (md_rtcp m) as [r|] eqn:R; cbn [opt_list map app]; [|now apply rtcp_clean]. cbn [take_rtcp]. rewrite rtcp_clean by exact C. cbn [bindo fst snd]. change (str_eqb (lit "rtcp") (lit "rtcp")) with true. cbv iota. rewrite rtcp_back; [reflexivity|]. match goal with H : opt_ok sound_rtcp (Some r) |- _ => now apply H end. }
  rewrite E3. cbn [bindo fst snd]. now destruct m.
Qed.
Lemma finish_all_back : forall ms, Forall sound_media ms -> finish_all (map unfinished ms) = Some ms.
Proof. induction ms as [|m ms IH]; intros H; [reflexivity|]. inversion H as [|? ? H1 H2]; subst. cbn [map finish_all]. rewrite finish_back by exact H1. cbn [bindo]. rewrite IH by exact H2. reflexivity. Qed.
