(** Properties C155-C157: CPIM messages. *)
From Coq Require Import Arith NArith Bool String List Lia ZifyBool ZifyN ZifyNat.
Import ListNotations.
From Verif Require Import Base BaseFacts NumFacts TypedFacts Text TextFacts Utf8Facts Dhcp DhcpProofs Cpim CpimSpec CpimProofs.
Open Scope N_scope.
Open Scope list_scope.

(** ** Maps *)
Lemma put_in : forall V k (v : V) m e, In e (bput k v m) -> In e m \/ e = (k, v).
Proof. intros V k v m e H. apply bput_in in H. tauto. Qed.
Lemma put_length : forall V k (v : V) m, (List.length (bput k v m) <= Datatypes.S (List.length m))%nat.
Proof. intros V k v. induction m as [|(k', w) m IH]; [cbn; lia|]. cbn [bput]. destruct (str_eqb k k'); [cbn; lia|]. destruct (str_ltb k k'); cbn [List.length]; lia. Qed.
Lemma get_absent : forall V k (m : list (str * V)), (forall k', In k' (keys m) -> str_ltb k k' = true) -> bget k m = None.
Proof.
  intros V k. unfold bget. induction m as [|(k', w) m IH]; intros H; [reflexivity|]. cbn [lookup]. assert (L : str_ltb k k' = true) by (apply H; now left). destruct (str_eqb k k') eqn:E; [apply str_eqb_spec in E; subst; rewrite str_ltb_irrefl in L; discriminate|]. apply IH. intros x Hx. apply H. now right.
Qed.
Lemma get_in : forall V k (v : V) m, bget k m = Some v -> In (k, v) m.
Proof. intros V k v m H. unfold bget in H. induction m as [|(x, w) m IH]; [discriminate|]. cbn [lookup] in H. destruct (str_eqb k x) eqn:E; [apply str_eqb_spec in E; injection H as ->; left; now subst|right; now apply IH]. Qed.
Lemma stored_in : forall n h hs, In h (stored n hs) -> exists l, In (n, l) hs /\ In h l.
Proof. intros n h hs H. unfold stored in H. destruct (bget n hs) as [l|] eqn:E; [|destruct H]. exists l. split; [now apply get_in|exact H]. Qed.
Lemma total_put : forall n l hs, sorted_keys hs -> total (bput n l hs) + llen (stored n hs) = total hs + llen l.
Proof.
  intros n l. induction hs as [|(k, v) hs IH]; intros S; [cbn [bput]; rewrite total_cons; change (llen (stored n [])) with 0; change (total []) with 0; lia|]. cbn [sorted_keys] in S. destruct S as (S1 & S2). cbn [bput]. unfold stored, bget. cbn [lookup]. destruct (str_eqb n k) eqn:E.
  - rewrite !total_cons. lia.
  - change (lookup str_eqb n hs) with (bget n hs). destruct (str_ltb n k) eqn:L.
    + rewrite get_absent by (intros k' Hk; apply (str_ltb_trans _ k); [exact L|now apply S1]). rewrite !total_cons. unfold llen at 3. cbn [List.length]. lia.
    + specialize (IH S2). unfold stored in IH. rewrite !total_cons. lia.
Qed.
Lemma total_push : forall n h hs, sorted_keys hs -> total (push n h hs) = total hs + 1.
Proof.
  intros n h hs S. unfold push. pose proof (total_put n (stored n hs ++ [h]) hs S) as T. unfold llen in *. rewrite app_length in T. cbn [List.length] in T. lia.
Qed.
(** ** What is within the limits *)
Definition hs_good (hs : list (str * list header)) : Prop := sorted_keys hs /\ forall n l, In (n, l) hs -> good_name n /\ l <> [] /\ forall h, In h l -> good_header h.
Definition cs_good (cs : list (str * str)) : Prop := sorted_keys cs /\ (forall n v, In (n, v) cs -> good_name n /\ clean 1024 [] v) /\ (List.length cs <= 20)%nat.
Lemma push_good : forall n h hs, hs_good hs -> good_name n -> good_header h -> hs_good (push n h hs).
Proof.
  intros n h hs (A & B) N H. split; [now apply bput_sorted|]. intros n' l Hl. apply put_in in Hl as [Hl|Hl]; [now apply B|]. apply pair_equal_spec in Hl as (-> & ->). split; [exact N|]. split; [destruct (stored n hs); discriminate|].
  intros x Hx. apply in_app_or in Hx as [Hx|[<-|[]]]; [|exact H]. apply stored_in in Hx as (l & L1 & L2). destruct (B n l L1) as (_ & _ & B3). now apply B3.
Qed.
Lemma put_good : forall n h hs, hs_good hs -> good_name n -> good_header h -> hs_good (bput n [h] hs).
Proof.
  intros n h hs (A & B) N H. split; [now apply bput_sorted|]. intros n' l Hl. apply put_in in Hl as [Hl|Hl]; [now apply B|]. apply pair_equal_spec in Hl as (-> & ->). split; [exact N|]. split; [discriminate|]. intros x [<-|[]]. exact H.
Qed.
Lemma cput_good : forall n v cs, cs_good cs -> (llen cs < 20) -> good_name n -> clean 1024 [] v -> cs_good (bput n v cs).
Proof.
  intros n v cs (A & B & C) L N H. split; [now apply bput_sorted|]. split; [intros n' w Hl; apply put_in in Hl as [Hl|Hl]; [now apply B|]; now apply pair_equal_spec in Hl as (-> & ->)|]. pose proof (put_length _ n v cs) as P. unfold llen in L. lia.
Qed.
Lemma within_iff : forall m, within m <-> hs_good (c_headers m) /\ total (c_headers m) <= 50 /\ (c_type m <> [] /\ clean 256 [] (c_type m)) /\ cs_good (c_content m) /\ llen (c_body m) <= MAX_BODY.
Proof.
  intros m. unfold within, hs_good, cs_good. rewrite total_flat. unfold llen, MAX_BODY. split.
  - intros (A & B & C & D & E & F & G & H). split; [now split|]. split; [lia|]. split; [exact D|]. split; [now split|]. lia.
  - intros ((A & B) & C & D & (E & F & G) & H). split; [exact A|]. split; [exact B|]. split; [lia|]. split; [exact D|]. split; [exact E|]. split; [exact F|]. split; [exact G|]. lia.
Qed.
Lemma header_good : forall h, header_built h -> good_header h.
Proof.
  intros h H. induction H as [v h H|h n v h' H IH E].
  - unfold header_new in H. destruct (value_ok v) eqn:V; [|discriminate]. injection H as <-. unfold value_ok in V. split; [cbn; lia|]. split; [cbn; lia|]. split; [exact I|]. intros p [].
  - unfold with_param in E. destruct (pname_ok n && pvalue_ok v && (llen (h_params h) <? 10)) eqn:K; [|discriminate]. injection E as <-. apply andb_true_iff in K as (K & K3). apply andb_true_iff in K as (K1 & K2). apply pname_iff in K1. apply pvalue_iff in K2. destruct IH as (A & B & C & D). unfold good_header. cbn [h_value h_params]. split; [exact A|].
    split; [pose proof (put_length _ n v (h_params h)); unfold llen in K3; lia|]. split; [now apply bput_sorted|]. intros p Hp. apply put_in in Hp as [Hp|Hp]; [now apply D|]. subst p. split; [apply K1|]. split; [apply K1|exact K2].
Qed.
Lemma new_good : forall v h, header_new v = Some h -> good_header h.
Proof. intros v h H. apply header_good. now apply (hb_new v). Qed.
(** C156: every message that can be built is within the limits ... *)
Theorem C156_built : forall m, built m -> within m.
Proof.
  intros m H. induction H as [t body m H|m body m' _ IH H|m n v m' _ IH H|m n v m' _ IH H|m n h m' _ IH HB H|m n v m' _ IH H]; try apply within_iff in IH as (I1 & I2 & I3 & I4 & I5); apply within_iff.
  - unfold cpim_new in H. destruct (type_ok t && (llen body <=? MAX_BODY)) eqn:K; [|discriminate]. injection H as <-. apply andb_true_iff in K as (K1 & K2). cbn [c_headers c_type c_content c_body]. split; [split; [exact I|intros ? ? []]|]. split; [cbn; lia|]. split; [now apply type_iff|]. split; [split; [exact I|split; [intros ? ? []|cbn; lia]]|]. lia.
  - unfold set_body in H. destruct (llen body <=? MAX_BODY) eqn:K; [|discriminate]. injection H as <-. cbn [c_headers c_type c_content c_body]. split; [exact I1|]. split; [exact I2|]. split; [exact I3|]. split; [exact I4|]. lia.
  - unfold set_header in H. destruct (_ && _) eqn:K; [|discriminate]. apply andb_true_iff in K as (K1 & K2). destruct (header_new v) as [h|] eqn:E; [|discriminate]. injection H as <-. cbn [c_headers c_type c_content c_body]. apply name_iff in K1. split; [apply put_good; [exact I1|exact K1|now apply (new_good v)]|]. split; [|split; [exact I3|split; [exact I4|exact I5]]].
    pose proof (total_put n [h] (c_headers m) (proj1 I1)) as T. unfold llen at 2 in T. cbn [List.length] in T. lia.
  - unfold add_header in H. destruct (header_new v) as [h|] eqn:E; [|discriminate]. unfold add_header_obj in H. destruct (_ && _) eqn:K; [|discriminate]. apply andb_true_iff in K as (K1 & K2). injection H as <-. cbn [c_headers c_type c_content c_body]. apply name_iff in K1. split; [apply push_good; [exact I1|exact K1|now apply (new_good v)]|]. split; [|split; [exact I3|split; [exact I4|exact I5]]]. rewrite total_push by apply I1. lia.
  - unfold add_header_obj in H. destruct (_ && _) eqn:K; [|discriminate]. apply andb_true_iff in K as (K1 & K2). injection H as <-. cbn [c_headers c_type c_content c_body]. apply name_iff in K1. split; [apply push_good; [exact I1|exact K1|now apply header_good]|]. split; [|split; [exact I3|split; [exact I4|exact I5]]]. rewrite total_push by apply I1. lia.
  - unfold add_content_header in H. destruct (_ && _) eqn:K; [|discriminate]. apply andb_true_iff in K as (K & K3). apply andb_true_iff in K as (K1 & K2). injection H as <-. cbn [c_headers c_type c_content c_body]. split; [exact I1|]. split; [exact I2|]. split; [exact I3|]. split; [|exact I5]. apply cput_good; [exact I4|lia|now apply name_iff|now apply cvalue_iff].
Qed.
Print Assumptions C156_built.
(** ... and so is every message that is accepted ... *)
Lemma params_good : forall ps acc r, read_params ps acc = Some r -> sorted_keys acc -> (List.length acc <= 10)%nat -> (forall p, In p acc -> good_param p) ->
  sorted_keys r /\ (List.length r <= 10)%nat /\ forall p, In p r -> good_param p.
Proof.
  induction ps as [|p ps IH]; intros acc r H A B C; cbn [read_params] in H; [injection H as <-; now split|]. destruct (split_once 61 p) as [(n, v)|]; [|now apply (IH acc)]. destruct (pname_ok (trim n) && pvalue_ok (trim v) && (llen acc <? 10)) eqn:K; [|discriminate]. apply andb_true_iff in K as (K & K3). apply andb_true_iff in K as (K1 & K2). apply pname_iff in K1. apply pvalue_iff in K2.
  apply (IH _ _ H); [now apply bput_sorted|pose proof (put_length _ (trim n) (trim v) acc); unfold llen in K3; lia|]. intros q Hq. apply put_in in Hq as [Hq|Hq]; [now apply C|]. subst q. split; [apply K1|]. split; [apply K1|exact K2].
Qed.
Lemma line_good : forall l n h, read_line l = Some (n, h) -> good_name n /\ good_header h.
Proof.
  intros l n h H. unfold read_line in H. destruct (split_once 58 l) as [(np, v)|]; [|discriminate]. destruct (split_on 59 np) as [|n0 ps]; [discriminate|]. destruct (name_ok (trim n0)) eqn:N; [|discriminate]. destruct (read_params ps []) as [r|] eqn:P; [|discriminate]. destruct (unescape (trim v)) as [w|]; [|discriminate]. destruct (value_ok w) eqn:V; [|discriminate]. injection H as <- <-. split; [now apply name_iff|].
  destruct (params_good _ _ _ P I (Nat.le_0_l _) (fun p F => match F with end)) as (A & B & C). unfold value_ok in V. split; [cbn [h_value]; lia|]. now split.
Qed.
Lemma lines_good : forall ls acc r, read_lines ls acc = Some r -> hs_good acc -> total acc <= 50 -> hs_good r /\ total r <= 50.
Proof.
  induction ls as [|l ls IH]; intros acc r H A B; cbn [read_lines] in H; [injection H as <-; now split|]. destruct (read_line l) as [(n, h)|] eqn:E; [|discriminate]. destruct (total (push n h acc) <=? 50) eqn:T; [|discriminate]. destruct (line_good _ _ _ E) as (N & G). apply (IH _ _ H); [now apply push_good|lia].
Qed.
Lemma content_good : forall ls t acc t' r, read_content ls t acc = Some (t', r) -> (t <> [] /\ clean 256 [] t) -> cs_good acc -> (t' <> [] /\ clean 256 [] t') /\ cs_good r.
Proof.
  induction ls as [|l ls IH]; intros t acc t' r H A B; cbn [read_content] in H; [injection H as <- <-; now split|]. destruct (split_once 58 l) as [(n, v)|]; [|now apply (IH t acc)]. destruct (eq_ic (trim n) (lit "Content-type")).
  - destruct (type_ok (trim v)) eqn:T; [|discriminate]. apply type_iff in T. now apply (IH (trim v) acc).
  - destruct (_ && _) eqn:K; [|discriminate]. apply andb_true_iff in K as (K & K3). apply andb_true_iff in K as (K1 & K2). apply (IH _ _ _ _ H A). apply cput_good; [exact B|lia|now apply name_iff|now apply cvalue_iff].
Qed.
Theorem C156_accepted : forall s m, parse_cpim s = Some m -> within m.
Proof.
  intros s m H. unfold parse_cpim in H. destruct (blen s <=? MAX_PARSE); [|discriminate]. destruct (split_str _ s) as [|mime [|hd [|ct [|b bs]]]]; try discriminate. destruct (has (lit "message/cpim") (lower mime)); [|discriminate]. destruct (read_lines (section_lines hd) []) as [hs|] eqn:L; [|discriminate]. destruct (read_content (section_lines ct) (lit "text/plain") []) as [(t, cs)|] eqn:C; [|discriminate].
  destruct (llen (utf8 (join BLANK (b :: bs))) <=? MAX_BODY) eqn:B; [|discriminate]. injection H as <-. apply within_iff. cbn [c_headers c_type c_content c_body]. destruct (lines_good _ _ _ L) as (L1 & L2); [split; [exact I|intros ? ? []]|cbn; lia|]. destruct (content_good _ _ _ _ _ C) as (C1 & C2).
  - apply type_iff. reflexivity.
  - split; [exact I|]. split; [intros ? ? []|cbn; lia].
  - split; [exact L1|]. split; [exact L2|]. split; [exact C1|]. split; [exact C2|]. now apply N.leb_le.
Qed.
Print Assumptions C156_accepted.
(** ... and every message within the limits can be written *)
Definition body_part (m : cpim) (b : str) : str := flat_map ended (type_line (c_type m) :: map content_line (c_content m)) ++ CRLF ++ b.
Lemma text_within : forall g m, within m -> cpim_text g m = Some (lit "Content-type: Message/CPIM" ++ BLANK ++ flat_map ended (header_lines (c_headers m)) ++ CRLF ++ body_part m (lossy g (c_body m))).
Proof.
  intros g m W. apply within_iff in W as ((A & B) & C & D & (E & F & G) & H). unfold cpim_text, body_part.
  assert (K1 : forallb (fun p => name_ok (fst p)) (c_headers m) = true) by (apply forallb_forall; intros (n, l) Hp; apply name_iff; now apply (B n l)).
  assert (K2 : forallb (fun p => forallb (fun h => forallb (fun q => pname_ok (fst q) && pvalue_ok (snd q)) (h_params h)) (snd p)) (c_headers m) = true).
  { apply forallb_forall. intros (n, l) Hp. destruct (B n l Hp) as (_ & _ & B3). apply forallb_forall. intros h Hh. destruct (B3 h Hh) as (_ & _ & _ & P). apply forallb_forall. intros q Hq. destruct (P q Hq) as (P1 & P2 & P3). apply andb_true_iff. split; [apply pname_iff; now split|now apply pvalue_iff]. }
  assert (K3 : type_ok (c_type m) = true) by now apply type_iff.
  assert (K4 : forallb (fun p => name_ok (fst p) && cvalue_ok (snd p)) (c_content m) = true) by (apply forallb_forall; intros (n, v) Hp; destruct (F n v Hp); apply andb_true_iff; split; [now apply name_iff|now apply cvalue_iff]).
  rewrite K1, K2, K3, K4. reflexivity.
Qed.
Theorem C156_writable : forall g m, within m -> cpim_text g m <> None.
Proof. intros g m W. rewrite text_within by exact W. discriminate. Qed.
Print Assumptions C156_writable.

(** ** Reading what was written *)
Lemma clean_lines : forall k no s, clean k no s -> ~ In 13 s /\ ~ In 10 s.
Proof. intros k no s (_ & H). split; intros K; apply H in K as (K & _); lia. Qed.
Lemma header_fine : forall n h, good_name n -> good_header h -> fine (header_line n h).
Proof.
  intros n h (N1 & N2) (_ & _ & _ & P). assert (K : forall c, c < 32 -> ~ In c (header_line n h)).
  { intros c L Hc. unfold header_line in Hc. apply in_app_or in Hc as [Hc|Hc]; [apply N2 in Hc as (? & _); lia|]. apply in_app_or in Hc as [[<-|[]]|Hc]; [lia|]. apply in_app_or in Hc as [Hc|Hc].
    - apply in_flat_map in Hc as (p & Hp & Hc). destruct (P p Hp) as (_ & P2 & P3). unfold param_text in Hc. apply in_app_or in Hc as [[<-|[]]|Hc]; [lia|]. apply in_app_or in Hc as [Hc|Hc]; [apply P2 in Hc as (? & _); lia|]. apply in_app_or in Hc as [[<-|[]]|Hc]; [lia|]. apply P3 in Hc as (? & _). lia.
    - apply in_app_or in Hc as [[<-|[]]|Hc]; [lia|]. apply escape_clean in Hc. unfold is_control in Hc. lia. }
  split; [unfold header_line; destruct n; discriminate|]. split; apply K; lia.
Qed.
Lemma headers_fine : forall hs, hs_good hs -> Forall fine (header_lines hs).
Proof.
  intros hs (_ & H). apply Forall_forall. intros l Hl. unfold header_lines in Hl. apply in_flat_map in Hl as ((n, hl) & Hp & Hl). cbn [fst snd] in Hl. apply in_map_iff in Hl as (h & <- & Hh). destruct (H n hl Hp) as (A & _ & B). now apply header_fine; [|apply B].
Qed.
Lemma headers_some : forall hs, hs_good hs -> hs <> [] -> header_lines hs <> [].
Proof. intros [|(n, l) hs] (_ & H) NE; [contradiction|]. destruct (H n l) as (_ & L & _); [now left|]. unfold header_lines. cbn [flat_map fst snd]. destruct l; [contradiction|discriminate]. Qed.
Lemma content_fine : forall m, within m -> Forall fine (type_line (c_type m) :: map content_line (c_content m)).
Proof.
  intros m W. apply within_iff in W as (_ & _ & (T1 & T2) & (_ & F & _) & _). constructor.
  - split; [discriminate|]. destruct (clean_lines _ _ _ T2) as (A & B). unfold type_line. split; intros K; apply in_app_or in K as [K|K]; try contradiction; vm_compute in K; repeat destruct K as [K|K]; try discriminate; destruct K.
  - apply Forall_forall. intros l Hl. apply in_map_iff in Hl as ((n, v) & <- & Hp). destruct (F n v Hp) as ((N1 & N2) & V). destruct (clean_lines _ _ _ N2) as (A & B). destruct (clean_lines _ _ _ V) as (C & D). unfold content_line. cbn [fst snd]. split; [destruct n; [contradiction|discriminate]|].
    split; intros K; apply in_app_or in K as [K|K]; try contradiction; cbn [app] in K; destruct K as [K|[K|K]]; try discriminate; contradiction.
Qed.
Lemma has_iff : forall p s x, find_sub p s = Some x -> has p s = true.
Proof. intros p s x H. unfold has. now rewrite H. Qed.
Lemma sections : forall m b, within m -> c_headers m <> [] ->
  let t := lit "Content-type: Message/CPIM" ++ BLANK ++ flat_map ended (header_lines (c_headers m)) ++ CRLF ++ body_part m b in
  has BLANK t = true /\ split_str BLANK t = lit "Content-type: Message/CPIM" :: join CRLF (header_lines (c_headers m)) :: join CRLF (type_line (c_type m) :: map content_line (c_content m)) :: split_str BLANK b.
Proof.
  intros m b W NE t. assert (F1 : find_sub BLANK t = Some (lit "Content-type: Message/CPIM", flat_map ended (header_lines (c_headers m)) ++ CRLF ++ body_part m b)).
  { unfold t, BLANK. rewrite find_clear by (vm_compute; intuition discriminate). match goal with |- context [[13; 10; 13; 10] ++ ?r] => destruct r; cbn [app find_sub strip_prefix]; cbn [N.eqb Pos.eqb]; rewrite ?app_nil_r; reflexivity end. }
  split; [now apply (has_iff _ _ _ F1)|]. rewrite (split_step BLANK _ _ _ ltac:(discriminate) F1). f_equal. pose proof W as W'. apply within_iff in W' as (G & _). rewrite (split_step BLANK _ (join CRLF (header_lines (c_headers m))) (body_part m b)); [|discriminate|apply find_lines; [now apply headers_some|now apply headers_fine]]. f_equal. unfold body_part.
  rewrite (split_step BLANK _ (join CRLF (type_line (c_type m) :: map content_line (c_content m))) b); [reflexivity|discriminate|]. apply find_lines; [discriminate|now apply content_fine].
Qed.
(** one header line *)
Lemma line_params : forall n h n' h', good_name n -> read_line (header_line n h) = Some (n', h') -> h_params h' = [].
Proof.
  intros n h n' h' (N1 & _ & N2) H. unfold read_line, header_line in H. change (n ++ [58] ++ ?x) with (n ++ 58 :: x) in H. rewrite split_once_app in H by (apply mem_false; intros K; apply N2 in K as (_ & _ & K); apply K; now left). rewrite split_on_nomem in H by (apply mem_false; intros K; apply N2 in K as (_ & _ & K); apply K; right; now left).
  destruct (name_ok (trim n)); [|discriminate]. cbn [read_params] in H. match type of H with context [unescape ?x] => destruct (unescape x) as [w|] end; [|discriminate]. destruct (value_ok w); [|discriminate]. now injection H as <- <-.
Qed.
Definition pare (h : header) : header := mkHeader (unblank (h_value h)) [].
Lemma line_back : forall n h, good_name n -> bare white n -> blen (h_value h) <= 1024 -> h_params h = [] -> read_line (header_line n h) = Some (n, pare h).
Proof.
  intros n h (N1 & N2 & N3) B L P. unfold read_line, header_line. rewrite P. cbn [flat_map app]. rewrite split_once_app by (apply mem_false; intros K; apply N3 in K as (_ & _ & K); apply K; now left). rewrite split_on_nomem by (apply mem_false; intros K; apply N3 in K as (_ & _ & K); apply K; right; now left).
  rewrite (bare_name n B). assert (N : name_ok n = true) by (apply name_iff; now split). rewrite N. cbn [read_params]. assert (T : trim (32 :: escape (h_value h)) = escape (unblank (h_value h))) by (rewrite <- trim_escape; reflexivity). rewrite T, unescape_escape. unfold value_ok. pose proof (trim_len blankb (h_value h)) as TL. fold (unblank (h_value h)) in TL. replace (blen (unblank (h_value h)) <=? 1024) with true by lia. reflexivity.
Qed.
(** all header lines *)
Lemma group_back : forall n, good_name n -> bare white n -> forall l acc cur rest, (forall h, In h l -> blen (h_value h) <= 1024 /\ h_params h = []) -> (forall k, In k (keys acc) -> str_ltb k n = true) ->
  total acc + llen cur + llen l <= 50 -> read_lines (map (header_line n) l ++ rest) (acc ++ [(n, cur)]) = read_lines rest (acc ++ [(n, cur ++ map pare l)]).
Proof.
  intros n N B. induction l as [|h l IH]; intros acc cur rest H K T; [cbn [map app]; now rewrite app_nil_r|]. cbn [map app read_lines]. destruct (H h) as (H1 & H2); [now left|]. rewrite line_back by assumption. unfold push, stored. rewrite get_last, put_again by exact K.
  assert (L : llen (h :: l) = 1 + llen l) by (unfold llen; cbn [List.length]; lia). assert (L2 : llen (cur ++ [pare h]) = llen cur + 1) by (unfold llen; rewrite app_length; cbn [List.length]; lia). rewrite total_app, total_cons, L2. change (total []) with 0. replace (total acc + (llen cur + 1 + 0) <=? 50) with true by lia.
  rewrite IH; [now rewrite <- app_assoc|intros x Hx; apply H; now right|exact K|lia].
Qed.
Lemma read_back : forall hs acc, hs_good hs -> (forall n l, In (n, l) hs -> bare white n /\ forall h, In h l -> h_params h = []) -> (forall k n, In k (keys acc) -> In n (keys hs) -> str_ltb k n = true) ->
  total acc + total hs <= 50 -> read_lines (header_lines hs) acc = Some (acc ++ map (fun p => (fst p, map pare (snd p))) hs).
Proof.
  induction hs as [|(n, l) hs IH]; intros acc (S & G) H K T; [cbn [header_lines flat_map read_lines map]; now rewrite app_nil_r|]. cbn [sorted_keys] in S. destruct S as (S1 & S2). destruct (G n l) as (G1 & G2 & G3); [now left|]. destruct (H n l) as (H1 & H2); [now left|]. unfold header_lines. cbn [flat_map fst snd]. fold (header_lines hs). destruct l as [|h l]; [contradiction|]. rewrite total_cons in T.
  assert (L : llen (h :: l) = 1 + llen l) by (unfold llen; cbn [List.length]; lia). assert (KN : forall k, In k (keys acc) -> str_ltb k n = true) by (intros k Hk; apply K; [exact Hk|now left]). cbn [map app read_lines]. rewrite line_back; [|exact G1|exact H1|apply G3; now left|apply H2; now left]. unfold push, stored. rewrite get_none by exact KN. cbn [app]. rewrite put_last by exact KN.
  rewrite total_app, total_cons. change (llen [pare h]) with 1. change (total []) with 0. replace (total acc + (1 + 0) <=? 50) with true by lia. rewrite (group_back n G1 H1 l acc [pare h]); [|intros x Hx; split; [apply G3; now right|apply H2; now right]|exact KN|change (llen [pare h]) with 1; lia].
  rewrite IH; [rewrite <- app_assoc; reflexivity|split; [exact S2|intros n' l' Hl; apply G; now right]|intros n' l' Hl; apply H; now right| |].
  - intros k n' Hk Hn. unfold keys in Hk. rewrite map_app in Hk. apply in_app_or in Hk as [Hk|[<-|[]]]; [apply K; [exact Hk|now right]|]. cbn [fst]. now apply S1.
  - rewrite total_app, total_cons. change (total []) with 0. unfold llen in *. rewrite app_length, map_length. cbn [List.length] in *. lia.
Qed.
(** the content headers *)
Lemma content_back : forall cs t acc, (forall n v, In (n, v) cs -> good_name n /\ clean 1024 [] v /\ bare white n /\ lower n <> lit "content-type") -> sorted_keys cs -> (forall k n, In k (keys acc) -> In n (keys cs) -> str_ltb k n = true) -> llen acc + llen cs <= 20 ->
  read_content (map content_line cs) t acc = Some (t, acc ++ map (fun p => (fst p, trim (snd p))) cs).
Proof.
  induction cs as [|(n, v) cs IH]; intros t acc H S K L; [cbn [map read_content]; now rewrite app_nil_r|]. cbn [sorted_keys] in S. destruct S as (S1 & S2). destruct (H n v) as ((N1 & N2 & N3) & V & B & NT); [now left|]. assert (LC : llen ((n, v) :: cs) = 1 + llen cs) by (unfold llen; cbn [List.length]; lia). cbn [map read_content]. unfold content_line at 1. cbn [fst snd]. change (n ++ [58; 32] ++ v) with (n ++ 58 :: 32 :: v). rewrite split_once_app by (apply mem_false; intros X; apply N3 in X as (_ & _ & X); apply X; now left).
  rewrite (bare_name n B). assert (E : eq_ic n (lit "Content-type") = false) by (destruct (eq_ic n (lit "Content-type")) eqn:E; [apply eq_ic_spec in E; contradiction|reflexivity]). rewrite E. assert (N : name_ok n = true) by (apply name_iff; now split). rewrite N. change (trim (32 :: v)) with (trim v). assert (CV : cvalue_ok (trim v) = true) by (apply cvalue_iff; now apply clean_trim). rewrite CV. replace (llen acc <? 20) with true by lia. cbn [andb].
  rewrite put_last by (intros k Hk; apply K; [exact Hk|now left]). rewrite IH; [rewrite <- app_assoc; reflexivity|intros n' v' Hp; apply H; now right|exact S2| |].
  - intros k n' Hk Hn. unfold keys in Hk. rewrite map_app in Hk. apply in_app_or in Hk as [Hk|[<-|[]]]; [apply K; [exact Hk|now right]|]. cbn [fst]. now apply S1.
  - unfold llen in *. rewrite app_length. cbn [List.length] in *. lia.
Qed.
(** ** Sizes *)
Lemma group_len : forall n l, blen n <= 128 -> (forall h, In h l -> blen (h_value h) <= 1024 /\ h_params h = []) -> blen (flat_map ended (map (header_line n) l)) <= 6276 * llen l.
Proof.
  intros n l N. induction l as [|h l IH]; intros H; [cbn; lia|]. cbn [map flat_map]. rewrite blen_app. assert (L : llen (h :: l) = 1 + llen l) by (unfold llen; cbn [List.length]; lia). rewrite L. destruct (H h) as (H1 & H2); [now left|]. assert (IQ : blen (flat_map ended (map (header_line n) l)) <= 6276 * llen l) by (apply IH; intros x Hx; apply H; now right).
  assert (E : blen (ended (header_line n h)) <= 6276); [|lia]. unfold ended, header_line. rewrite H2. cbn [flat_map]. rewrite !blen_app. pose proof (escape_len (h_value h)). change (blen [58]) with 1. change (blen [32]) with 1. change (blen CRLF) with 2. change (blen []) with 0. lia.
Qed.
Lemma headers_len : forall hs, hs_good hs -> (forall n l h, In (n, l) hs -> In h l -> h_params h = []) -> blen (flat_map ended (header_lines hs)) <= 6276 * total hs.
Proof.
  induction hs as [|(n, l) hs IH]; intros (S & G) P; [cbn; lia|]. cbn [sorted_keys] in S. rewrite total_cons. unfold header_lines. cbn [flat_map fst snd]. fold (header_lines hs). rewrite flat_map_app, blen_app. destruct (G n l) as ((_ & N & _) & _ & G3); [now left|].
  assert (A : blen (flat_map ended (map (header_line n) l)) <= 6276 * llen l) by (apply group_len; [exact N|]; intros h Hh; split; [now apply G3|apply (P n l h); [now left|exact Hh]]).
  assert (B : blen (flat_map ended (header_lines hs)) <= 6276 * total hs) by (apply IH; [split; [apply S|intros n' l' Hl; apply G; now right]|intros n' l' h Hl Hh; apply (P n' l' h); [now right|exact Hh]]). lia.
Qed.
Lemma content_len : forall cs, (forall n v, In (n, v) cs -> good_name n /\ clean 1024 [] v) -> blen (flat_map ended (map content_line cs)) <= 1156 * llen cs.
Proof.
  induction cs as [|(n, v) cs IH]; intros H; [cbn; lia|]. cbn [map flat_map]. rewrite blen_app. assert (L : llen ((n, v) :: cs) = 1 + llen cs) by (unfold llen; cbn [List.length]; lia). rewrite L. destruct (H n v) as ((_ & N & _) & V & _); [now left|]. assert (IQ : blen (flat_map ended (map content_line cs)) <= 1156 * llen cs) by (apply IH; intros x y Hx; apply H; now right).
  assert (E : blen (ended (content_line (n, v))) <= 1156); [|lia]. unfold ended, content_line. cbn [fst snd]. rewrite !blen_app. change (blen [58; 32]) with 2. change (blen CRLF) with 2. lia.
Qed.
Lemma pared_all : forall hs, (forall n l h, In (n, l) hs -> In h l -> h_params h = []) ->
  Forall2 (fun p p' : str * list header => fst p = fst p' /\ Forall2 (fun h h' => pared blank (h_value h) (h_value h') /\ h_params h' = []) (snd p) (snd p')) hs (map (fun p => (fst p, map pare (snd p))) hs).
Proof.
  intros hs _. induction hs as [|(n, l) hs IH]; constructor; [|exact IH]. cbn [fst snd]. split; [reflexivity|]. induction l as [|h l IHl]; constructor; [|exact IHl]. split; [apply (trim_pared blankb blank), blankb_iff|reflexivity].
Qed.
(** C155: a CPIM message that can be built and has headers, no parameters and names
    without white space round them is read back from its text as it was: nothing in
    a value, in the type or in the body makes or hides a header, and only blanks
    round values are lost *)
Theorem C155_safe : forall g m s, built m -> c_headers m <> [] -> no_params m -> tidy m -> (exists c, In c (c_type m) /\ is_ws c = false) -> c_body m = utf8 s -> is_str s = true ->
  exists t m', cpim_text g m = Some t /\ parse_cpim t = Some m' /\ same_but_blanks m m'.
Proof.
  intros g m s BM NE NP (T1 & T2) (tc & TC1 & TC2) BD ST. assert (W : within m) by now apply C156_built. pose proof W as W'. apply within_iff in W' as (G & TOT & (TY1 & TY2) & (C1 & C2 & C3) & BL). eexists. exists (mkCpim (map (fun p => (fst p, map pare (snd p))) (c_headers m)) (trim (c_type m)) (map (fun p => (fst p, trim (snd p))) (c_content m)) (c_body m)).
  split; [now apply text_within|]. assert (LS : lossy g (c_body m) = s) by (rewrite BD; now apply lossy_utf8). rewrite LS. destruct (sections m s W NE) as (S1 & S2). split.
  - unfold parse_cpim. rewrite S1, S2. assert (BS : blen s <= MAX_BODY) by (rewrite <- llen_utf8, <- BD; exact BL).
    assert (SZ : blen (lit "Content-type: Message/CPIM" ++ BLANK ++ flat_map ended (header_lines (c_headers m)) ++ CRLF ++ body_part m s) <= MAX_PARSE).
    { unfold body_part. cbn [flat_map]. rewrite !blen_app. unfold ended at 2. unfold type_line. rewrite !blen_app. pose proof (headers_len (c_headers m) G (fun n l h A B => NP n l h A B)) as HL. pose proof (content_len (c_content m) C2) as CL. assert (C4 : llen (c_content m) <= 20) by (unfold llen; lia). destruct TY2 as (TY2 & _). change (blen (lit "Content-type: Message/CPIM")) with 26. change (blen BLANK) with 4. change (blen CRLF) with 2. change (blen (lit "Content-type: ")) with 14. unfold MAX_BODY, MAX_PARSE in *. lia. }
    replace (blen (lit "Content-type: Message/CPIM" ++ BLANK ++ flat_map ended (header_lines (c_headers m)) ++ CRLF ++ body_part m s) <=? MAX_PARSE) with true by (symmetry; now apply N.leb_le).
    destruct (join_split BLANK (Datatypes.S (List.length s)) s) as (J1 & J2). fold (split_str BLANK s) in J1, J2. destruct (split_str BLANK s) as [|b bs] eqn:SP; [contradiction|]. change (has (lit "message/cpim") (lower (lit "Content-type: Message/CPIM"))) with true. cbv iota.
    rewrite (lines_back (header_lines (c_headers m))) by (try (now apply headers_some); now apply headers_fine). rewrite (lines_back (type_line (c_type m) :: map content_line (c_content m))) by (try discriminate; now apply content_fine).
    rewrite (read_back (c_headers m) []); [|exact G|intros n l Hl; split; [now apply (T1 n l)|intros h Hh; now apply (NP n l h)]|intros k n []|change (total []) with 0; lia]. cbn [app].
    assert (TT : trim (c_type m) <> []).
    { intros K. destruct (trim_pared is_ws white (c_type m) white_iff) as (_ & a & b' & E & F). fold (trim (c_type m)) in E. rewrite K in E. cbn [app] in E. rewrite E in TC1. apply F in TC1. unfold white in TC1. congruence. }
    cbn [read_content]. unfold type_line at 1. change (lit "Content-type: " ++ c_type m) with (lit "Content-type" ++ 58 :: 32 :: c_type m). rewrite split_once_app by reflexivity. change (eq_ic (trim (lit "Content-type")) (lit "Content-type")) with true. cbv iota. change (trim (32 :: c_type m)) with (trim (c_type m)). assert (TO : type_ok (trim (c_type m)) = true) by (apply type_iff; split; [exact TT|now apply clean_trim]). rewrite TO.
    rewrite (content_back (c_content m) (trim (c_type m)) []); [|intros n v Hp; exact (conj (proj1 (C2 n v Hp)) (conj (proj2 (C2 n v Hp)) (T2 n v Hp)))|exact C1|intros k n []|unfold llen; cbn [List.length]; lia]. cbn [app].
    assert (J : join BLANK (b :: bs) = s) by exact J1. rewrite J. rewrite llen_utf8. replace (blen s <=? MAX_BODY) with true by (symmetry; now apply N.leb_le). now rewrite BD.
  - split; [now apply pared_all|]. cbn [c_headers c_type c_content c_body]. split; [apply trim_pared, white_iff|]. split; [|reflexivity]. clear. induction (c_content m) as [|(n, v) l IH]; constructor; [|exact IH]. split; [reflexivity|]. apply trim_pared, white_iff.
Qed.
Print Assumptions C155_safe.
(** ... and if there are none, all is read back as it was *)
Lemma pared_bare : forall P v w, bare P v -> pared P v w -> w = v.
Proof.
  intros P v w B (B' & a & b & E & F). assert (A : a = []).
  { destruct a as [|c a]; [reflexivity|]. exfalso. apply (B [] c (a ++ w ++ b)); [exact E|now left|]. apply F. now left. }
  subst a. cbn [app] in E. destruct b as [|c b _] using rev_ind; [now rewrite app_nil_r in E|]. exfalso. apply (B (w ++ b) c []); [rewrite E, <- app_assoc; reflexivity|now right|]. apply F. apply in_or_app. right. apply in_or_app. right. now left.
Qed.
Lemma pared_headers : forall hs hs', (forall n l h, In (n, l) hs -> In h l -> h_params h = [] /\ bare blank (h_value h)) ->
  Forall2 (fun p p' : str * list header => fst p = fst p' /\ Forall2 (fun h h' => pared blank (h_value h) (h_value h') /\ h_params h' = []) (snd p) (snd p')) hs hs' -> hs' = hs.
Proof.
  intros hs hs' H F. induction F as [|(n, l) (n', l') hs hs' (F1 & F2) F IH]; [reflexivity|]. cbn [fst snd] in *. subst n'. f_equal; [|apply IH; intros n0 l0 h0 A B; apply (H n0 l0 h0); [now right|exact B]]. f_equal.
  assert (K : forall h, In h l -> h_params h = [] /\ bare blank (h_value h)) by (intros h Hh; apply (H n l h); [now left|exact Hh]). clear - F2 K. induction F2 as [|(v, ps) (v', ps') l l' (P1 & P2) F IH]; [reflexivity|]. destruct (K (mkHeader v ps)) as (K1 & K2); [now left|]. cbn [h_value h_params] in *. subst ps ps'. f_equal; [|apply IH; intros h Hh; apply K; now right]. f_equal. now apply (pared_bare blank).
Qed.
Theorem C155_roundtrip : forall g m s, built m -> c_headers m <> [] -> no_params m -> tidy m -> c_body m = utf8 s -> is_str s = true ->
  (forall n hs h, In (n, hs) (c_headers m) -> In h hs -> bare blank (h_value h)) -> bare white (c_type m) -> (forall n v, In (n, v) (c_content m) -> bare white v) ->
  exists t, cpim_text g m = Some t /\ parse_cpim t = Some m.
Proof.
  intros g m s BM NE NP T BD ST V1 V2 V3. pose proof (C156_built m BM) as W. apply within_iff in W as (_ & _ & (TY & _) & _). destruct (C155_safe g m s BM NE NP T) as (t & m' & A & B & (S1 & S2 & S3 & S4)); [|exact BD|exact ST|].
  - destruct (c_type m) as [|c r] eqn:E; [contradiction|]. exists c. split; [now left|]. destruct (is_ws c) eqn:W; [|reflexivity]. exfalso. apply (V2 [] c r eq_refl); [now left|exact W].
  - exists t. split; [exact A|]. rewrite B. f_equal. destruct m as [hs ty cs b], m' as [hs' ty' cs' b']. cbn [c_headers c_type c_content c_body] in *. f_equal.
    + apply pared_headers; [|exact S1]. intros n l h Hl Hh. split; [now apply (NP n l h)|now apply (V1 n l h)].
    + now apply (pared_bare white).
    + clear - S3 V3. induction S3 as [|(n, v) (n', v') l l' (P1 & P2) F IH]; [reflexivity|]. cbn [fst snd] in *. subst n'. f_equal; [|apply IH; intros n0 v0 H; apply (V3 n0 v0); now right]. f_equal. apply (pared_bare white); [apply (V3 n v); now left|exact P2].
    + now symmetry.
Qed.
Print Assumptions C155_roundtrip.
(** C155, refuted: parameters are written behind the colon and looked for before it,
    so no message with a parameter is ever read back *)
Lemma lines_params : forall ls acc r, read_lines ls acc = Some r -> (forall l n h, In l ls -> read_line l = Some (n, h) -> h_params h = []) -> (forall n l h, In (n, l) acc -> In h l -> h_params h = []) -> forall n l h, In (n, l) r -> In h l -> h_params h = [].
Proof.
  induction ls as [|l ls IH]; intros acc r H A B; cbn [read_lines] in H; [now injection H as <-|]. destruct (read_line l) as [(n, h)|] eqn:E; [|discriminate]. destruct (total (push n h acc) <=? 50); [|discriminate]. apply (IH _ _ H); [intros l' n' h' Hl; apply A; now right|].
  intros n' l' h' Hp Hh. unfold push in Hp. apply put_in in Hp as [Hp|Hp]; [now apply (B n' l' h')|]. apply pair_equal_spec in Hp as (-> & ->). apply in_app_or in Hh as [Hh|[<-|[]]]; [|apply (A l n h); [now left|exact E]]. apply stored_in in Hh as (l' & L1 & L2). now apply (B n l' h').
Qed.
Theorem C155_params_refuted : forall g m t m', built m -> (exists n hs h, In (n, hs) (c_headers m) /\ In h hs /\ h_params h <> []) -> cpim_text g m = Some t -> parse_cpim t = Some m' ->
  (forall n hs h, In (n, hs) (c_headers m') -> In h hs -> h_params h = []) /\ m' <> m.
Proof.
  intros g m t m' BM (n & hs & h & P1 & P2 & P3) T H. assert (X : forall n hs h, In (n, hs) (c_headers m') -> In h hs -> h_params h = []); [|split; [exact X|intros ->; apply P3; now apply (X n hs h)]].
  pose proof (C156_built m BM) as W. assert (NE : c_headers m <> []) by (intros K; rewrite K in P1; destruct P1). rewrite text_within in T by exact W.
  assert (TE : t = lit "Content-type: Message/CPIM" ++ BLANK ++ flat_map ended (header_lines (c_headers m)) ++ CRLF ++ body_part m (lossy g (c_body m))) by congruence. rewrite TE in H. clear TE T. destruct (sections m (lossy g (c_body m)) W NE) as (S1 & S2). pose proof W as W'. apply within_iff in W' as (G & _).
  unfold parse_cpim in H. rewrite S1, S2 in H. match type of H with (if ?b then _ else _) = _ => destruct b; [|discriminate] end. destruct (split_str BLANK (lossy g (c_body m))) as [|b bs]; [discriminate|]. match type of H with (if ?b then _ else _) = _ => destruct b; [|discriminate] end.
  rewrite (lines_back (header_lines (c_headers m))) in H by (try (now apply headers_some); now apply headers_fine). destruct (read_lines (header_lines (c_headers m)) []) as [hs'|] eqn:R; [|discriminate]. match type of H with match ?b with _ => _ end = _ => destruct b as [(t', cs)|]; [|discriminate] end. match type of H with (if ?b then _ else _) = _ => destruct b; [|discriminate] end. injection H as <-. cbn [c_headers].
  apply (lines_params _ _ _ R); [|intros ? ? ? []]. intros l n' h' Hl E. unfold header_lines in Hl. apply in_flat_map in Hl as ((n0, l0) & Hp & Hl). cbn [fst snd] in Hl. apply in_map_iff in Hl as (h0 & <- & Hh). destruct G as (_ & G). apply (line_params n0 h0 n' h'); [now apply (G n0 l0)|exact E].
Qed.
Print Assumptions C155_params_refuted.
(** an example *)
Definition from_alice : list (str * list header) := [(lit "From", [mkHeader (lit "Alice") []]); (lit "Subject", [mkHeader ([72; 105; 13; 10] ++ lit "To: Eve") []])].
Definition greeting : cpim := mkCpim from_alice (lit "text/plain") [(lit "Content-ID", lit "<1@h>")] (utf8 (lit "Hello" ++ BLANK ++ [8364])).
Lemma greeting_built : built greeting.
Proof.
  apply (b_content (mkCpim from_alice (lit "text/plain") [] (c_body greeting)) (lit "Content-ID") (lit "<1@h>")); [|vm_compute; reflexivity].
  apply (b_add (mkCpim [(lit "From", [mkHeader (lit "Alice") []])] (lit "text/plain") [] (c_body greeting)) (lit "Subject") ([72; 105; 13; 10] ++ lit "To: Eve")); [|vm_compute; reflexivity].
  apply (b_set (mkCpim [] (lit "text/plain") [] (c_body greeting)) (lit "From") (lit "Alice")); [|vm_compute; reflexivity]. apply (b_new (lit "text/plain") (c_body greeting)). vm_compute. reflexivity.
Qed.
Example C155_hypotheses_met : built greeting /\ c_headers greeting <> [] /\ no_params greeting /\ tidy greeting /\ (exists c, In c (c_type greeting) /\ is_ws c = false)
  /\ c_body greeting = utf8 (lit "Hello" ++ BLANK ++ [8364]) /\ is_str (lit "Hello" ++ BLANK ++ [8364]) = true
  /\ forall g, exists t, cpim_text g greeting = Some t /\ parse_cpim t = Some greeting.
Proof.
  split; [exact greeting_built|]. split; [discriminate|]. split; [intros n hs h [H|[H|[]]] K; apply pair_equal_spec in H as (<- & <-); destruct K as [<-|[]]; reflexivity|]. split.
  - assert (BW : forall s, trim s = s -> bare white s) by (intros s H; rewrite <- H; apply (trim_pared is_ws white), white_iff). split; [intros n hs [H|[H|[]]]; apply pair_equal_spec in H as (<- & _); apply BW; reflexivity|]. intros n v [H|[]]. apply pair_equal_spec in H as (<- & _). split; [apply BW; reflexivity|vm_compute; discriminate].
  - split; [exists 116; split; [now left|reflexivity]|]. split; [reflexivity|]. split; [vm_compute; reflexivity|]. intros g. eexists. split; [vm_compute; reflexivity|vm_compute; reflexivity].
Qed.

(** an escaped value stands for a text: no escape yields half of a surrogate pair *)
Theorem C156_escapes : forall s t, is_str s = true -> unescape s = Some t -> is_str t = true.
Proof.
  assert (K : forall n s t, (List.length s <= n)%nat -> is_str s = true -> unescape s = Some t -> is_str t = true).
  { induction n as [|n IH]; intros [|c r] t L S U; cbn [List.length] in L; try lia; try (injection U as <-; reflexivity). cbn [is_str forallb] in S. apply andb_true_iff in S as (Sc & S). fold (is_str r) in S.
    assert (O : forall x r' t', (List.length r' <= n)%nat -> is_str r' = true -> is_scalar x = true -> ocons x (unescape r') = Some t' -> is_str t' = true).
    { intros x r' t' L' S' X E. unfold ocons in E. destruct (unescape r') as [u|] eqn:R; [|discriminate]. injection E as <-. cbn [is_str forallb]. rewrite X. exact (IH r' u L' S' R). }
    cbn [unescape] in U. destruct (c =? 92); [|apply (O c r); [lia|exact S|exact Sc|exact U]]. destruct r as [|e r1]; [discriminate|]. cbn [List.length] in L. cbn [is_str forallb] in S. apply andb_true_iff in S as (_ & S). fold (is_str r1) in S.
    destruct (e =? 92); [apply (O 92 r1); [lia|exact S|reflexivity|exact U]|]. destruct (e =? 34); [apply (O 34 r1); [lia|exact S|reflexivity|exact U]|]. destruct (e =? 98); [apply (O 8 r1); [lia|exact S|reflexivity|exact U]|]. destruct (e =? 116); [apply (O 9 r1); [lia|exact S|reflexivity|exact U]|].
    destruct (e =? 110); [apply (O 10 r1); [lia|exact S|reflexivity|exact U]|]. destruct (e =? 114); [apply (O 13 r1); [lia|exact S|reflexivity|exact U]|]. destruct (e =? 117); [|discriminate].
    destruct r1 as [|w [|x [|y [|z r2]]]]; try discriminate. destruct (hex4 w x y z) as [v|]; [|discriminate]. destruct (is_scalar v) eqn:V; [|discriminate]. cbn [List.length] in L. cbn [is_str forallb] in S. apply andb_true_iff in S as (_ & S). apply andb_true_iff in S as (_ & S). apply andb_true_iff in S as (_ & S). apply andb_true_iff in S as (_ & S). apply (O v r2); [lia|exact S|exact V|exact U]. }
  intros s t. exact (K (List.length s) s t (Nat.le_refl _)).
Qed.
Print Assumptions C156_escapes.
(** a parameter without a value is lost without notice *)
Theorem C155_flag_refuted : exists s m, find_sub (lit "From;secret: Alice") s <> None /\ parse_cpim s = Some m /\ c_headers m = [(lit "From", [mkHeader (lit "Alice") []])].
Proof.
  exists (lit "Content-type: Message/CPIM" ++ BLANK ++ lit "From;secret: Alice" ++ BLANK ++ lit "Content-type: text/plain" ++ BLANK ++ lit "Hi"). eexists. split; [vm_compute; discriminate|]. split; [vm_compute; reflexivity|reflexivity].
Qed.
Print Assumptions C155_flag_refuted.
