(** Model of finding the targets of a SIP URI: crates/sip-dns/src/lib.rs.
    Simplifications: the answers of the name servers are an argument, [None] standing for
    an error or a timeout; an address is given by its text; the service field of NAPTR
    records is given as text; the random generator is a list of draws, each reduced
    to the range asked for (an exhausted list gives 0). Error payloads are dropped. *)
From Coq Require Import NArith Bool String List.
Import ListNotations.
From Verif Require Import Base Text Uri.
Open Scope N_scope.
Open Scope list_scope.

(** lib.rs:84-97, in the derived order *)
Inductive transport := Udp | Tcp | Tls | Ws | Wss | Sctp | TlsSctp.
Definition t_rank (t : transport) : N := match t with Udp => 0 | Tcp => 1 | Tls => 2 | Ws => 3 | Wss => 4 | Sctp => 5 | TlsSctp => 6 end.
Definition t_eqb (a b : transport) : bool := t_rank a =? t_rank b.
(** lib.rs:111-118, 131-137 *)
Definition proto_str (t : transport) : str :=
  match t with Udp => lit "udp" | Tcp | Tls | Ws | Wss => lit "tcp" | Sctp | TlsSctp => lit "sctp" end.
Definition service_str (t : transport) (sips : bool) : str :=
  match t with Tls | Wss | TlsSctp => lit "_sips" | _ => if sips then lit "_sips" else lit "_sip" end.
(** lib.rs:171-186, 212-247 [DnsTarget] *)
Record target := mkTarget { tg_host : str; tg_port : N; tg_transport : transport; tg_priority : N; tg_tls : option str }.
Definition unchecked_new (h : str) (p : N) (t : transport) : target := mkTarget h p t 0 None.
Definition with_tls_name (n : str) (t : target) : target := mkTarget (tg_host t) (tg_port t) (tg_transport t) (tg_priority t) (Some n).
(** lib.rs:276-280 [sni] *)
Definition sni (t : target) : str := match tg_tls t with Some n => n | None => tg_host t end.
(** lib.rs:43 *)
Definition MAX_TARGETS : N := 100.
(** lib.rs:303-312 *)
Definition enforce_target_limit (l : list target) : option (list target) := if MAX_TARGETS <? llen l then None else Some l.

(** what the name servers answer *)
Inductive ip := V4 (text : str) | V6 (text : str).
Definition ip_text (a : ip) : str := match a with V4 t | V6 t => t end.
Record naptr_rr := mkNaptr { na_order : N; na_pref : N; na_service : str; na_repl : str }.
Record srv_rr := mkSrv { sv_prio : N; sv_weight : N; sv_port : N; sv_target : str }.
Record dns := mkDns { d_naptr : str -> option (list naptr_rr); d_srv : str -> option (list srv_rr); d_ip : str -> option (list ip) }.

(** lib.rs:394-413, 416-429 *)
Definition transport_of (v : str) : transport :=
  let t := lower v in
  if str_eqb t (lit "tcp") then Tcp else if str_eqb t (lit "tls") then Tls else if str_eqb t (lit "ws") then Ws
  else if str_eqb t (lit "wss") then Wss else if str_eqb t (lit "sctp") then Sctp else if str_eqb t (lit "tls-sctp") then TlsSctp else Udp.
Definition transport_param (u : sip_uri) : option transport :=
  match bget (lit "transport") (u_params u) with Some (Some v) => Some (transport_of v) | _ => None end.
Definition default_transport (u : sip_uri) : transport :=
  if u_sips u then Tls else match transport_param u with Some t => t | None => Udp end.
(** lib.rs:432-434 *)
Definition is_numeric_ip (h : str) : bool := ipv4_ok h || ipv6_ok h.
(** lib.rs:533-556 *)
Definition default_transport_order (u : sip_uri) : list transport :=
  if u_sips u then [Tls] else match transport_param u with Some t => [t] | None => [Tcp; Udp] end.

(** [trim_end_matches('.')] *)
Definition trim_dots (s : str) : str := trim_end_by (N.eqb 46) s.
(** [str::contains] *)
Definition contains (p s : str) : bool := is_some (find_sub p s).
(** [to_ascii_uppercase] *)
Definition upper_c (c : N) : N := if in_range 97 122 c then c - 32 else c.
Definition upper (s : str) : str := map upper_c s.
(** lib.rs:589-613 *)
Definition naptr_transport (service : str) : option transport :=
  let s := upper service in
  if contains (lit "SIPS+D2T") s then Some Tls else if contains (lit "SIP+D2T") s then Some Tcp else if contains (lit "SIP+D2U") s then Some Udp
  else if contains (lit "SIPS+D2W") s then Some Wss else if contains (lit "SIP+D2W") s then Some Ws
  else if contains (lit "SIPS+D2S") s then Some TlsSctp else if contains (lit "SIP+D2S") s then Some Sctp else None.
(** lib.rs:315-321 [NaptrRecord]; its derived order *)
Record naptr := mkNaptrRec { nr_order : N; nr_pref : N; nr_transport : transport; nr_repl : option str }.
Fixpoint str_leb (a b : str) : bool :=
  match a, b with
  | [], _ => true
  | _ :: _, [] => false
  | x :: a', y :: b' => if x <? y then true else if y <? x then false else str_leb a' b'
  end.
Definition opt_leb (a b : option str) : bool :=
  match a, b with None, _ => true | Some _, None => false | Some x, Some y => str_leb x y end.
Definition naptr_leb (a b : naptr) : bool :=
  if negb (nr_order a =? nr_order b) then nr_order a <? nr_order b
  else if negb (nr_pref a =? nr_pref b) then nr_pref a <? nr_pref b
  else if negb (t_eqb (nr_transport a) (nr_transport b)) then t_rank (nr_transport a) <? t_rank (nr_transport b)
  else opt_leb (nr_repl a) (nr_repl b).
(** [Vec::sort] is stable *)
Fixpoint ins_naptr (x : naptr) (l : list naptr) : list naptr :=
  match l with [] => [x] | y :: r => if naptr_leb x y then x :: l else y :: ins_naptr x r end.
Definition sort_naptr (l : list naptr) : list naptr := fold_right ins_naptr [] l.
(** lib.rs:583-635: one answer *)
Definition naptr_of (allowed : option transport) (r : naptr_rr) : option naptr :=
  match naptr_transport (na_service r) with
  | None => None
  | Some t =>
      if match allowed with Some a => negb (t_eqb t a) | None => false end then None
      else if str_eqb (na_repl r) (lit ".") then None
      else let x := trim_dots (na_repl r) in
           Some (mkNaptrRec (na_order r) (na_pref r) t (match x with [] => None | _ => Some x end))
  end.
Definition filter_map {A B} (f : A -> option B) (l : list A) : list B :=
  flat_map (fun a => match f a with Some b => [b] | None => [] end) l.
(** lib.rs:558-643 [lookup_naptr] *)
Definition lookup_naptr (d : dns) (u : sip_uri) (allowed : option transport) : option (list naptr) :=
  match d_naptr d (u_host u ++ lit ".") with
  | None => None
  | Some l => match filter_map (naptr_of allowed) l with [] => None | rs => Some (sort_naptr rs) end
  end.

(** lib.rs:762-795 [select_by_weight]: a record is its weight, host and port *)
Definition wrec := (N * str * N)%type.
Definition w_of (r : wrec) : N := fst (fst r).
Definition total_weight (l : list wrec) : N := fold_right (fun r a => w_of r + a) 0 l.
(** 781-787: the first record at which the running sum exceeds the draw *)
Fixpoint position (pick cum : N) (l : list wrec) : option nat :=
  match l with
  | [] => None
  | r :: l' => if pick <? cum + w_of r then Some O else match position pick (cum + w_of r) l' with Some i => Some (S i) | None => None end
  end.
Definition choice (draw : N) (l : list wrec) : nat :=
  let t := total_weight l in
  if t =? 0 then N.to_nat (draw mod llen l)
  else match position (draw mod t) 0 l with Some i => i | None => O end.
Fixpoint remove_nth {A} (i : nat) (l : list A) : list A :=
  match l, i with
  | [], _ => []
  | _ :: r, O => r
  | x :: r, S j => x :: remove_nth j r
  end.
Fixpoint select (k : nat) (rs : list N) (l : list wrec) : list (str * N) * list N :=
  match k with
  | O => ([], rs)
  | S j =>
      let i := choice (hd 0 rs) l in
      match nth_error l i with
      | None => ([], rs)
      | Some (_, h, p) => let '(out, rs') := select j (tl rs) (remove_nth i l) in ((h, p) :: out, rs')
      end
  end.
Definition select_by_weight (rs : list N) (l : list wrec) : list (str * N) * list N := select (length l) rs l.

(** lib.rs:671-688: the groups, by priority *)
Definition srv_usable (r : srv_rr) : option wrec :=
  if str_eqb (sv_target r) (lit ".") then None
  else match trim_dots (sv_target r) with [] => None | h => Some (sv_weight r, h, sv_port r) end.
Fixpoint group_add (p : N) (x : wrec) (g : list (N * list wrec)) : list (N * list wrec) :=
  match g with
  | [] => [(p, [x])]
  | (q, l) :: r => if p <? q then (p, [x]) :: g else if q <? p then (q, l) :: group_add p x r else (q, l ++ [x]) :: r
  end.
Definition groups (l : list srv_rr) : list (N * list wrec) :=
  fold_left (fun g r => match srv_usable r with Some x => group_add (sv_prio r) x g | None => g end) l [].
(** lib.rs:690-698 *)
Fixpoint group_targets (rs : list N) (t : transport) (g : list (N * list wrec)) : list target * list N :=
  match g with
  | [] => ([], rs)
  | (p, l) :: r =>
      let '(sel, rs1) := select_by_weight rs l in
      let '(out, rs2) := group_targets rs1 t r in
      (map (fun x => mkTarget (fst x) (snd x) t p None) sel ++ out, rs2)
  end.
(** lib.rs:646-705 [lookup_srv] *)
Definition srv_name (t : transport) (sips : bool) (host : str) : str := service_str t sips ++ lit "._" ++ proto_str t ++ lit "." ++ host.
Definition lookup_srv (d : dns) (rs : list N) (host : str) (t : transport) (sips : bool) : option (list target) * list N :=
  match d_srv d (srv_name t sips host) with
  | None => (None, rs)
  | Some l => let '(ts, rs') := group_targets rs t (groups l) in (match ts with [] => None | _ => Some ts end, rs')
  end.
(** lib.rs:499-517, both loops *)
Fixpoint srv_all (d : dns) (rs : list N) (sips : bool) (l : list (str * transport)) : list target :=
  match l with
  | [] => []
  | (h, t) :: r => let '(x, rs') := lookup_srv d rs h t sips in (match x with Some ts => ts | None => [] end) ++ srv_all d rs' sips r
  end.
(** lib.rs:708-745 [lookup_a_aaaa]: alternating, IPv6 first *)
Definition v6s (l : list ip) : list ip := filter (fun a => match a with V6 _ => true | V4 _ => false end) l.
Definition v4s (l : list ip) : list ip := filter (fun a => match a with V4 _ => true | V6 _ => false end) l.
Fixpoint interleave (k : nat) (i : nat) (a b : list ip) : list ip :=
  match k with
  | O => []
  | S j => (match nth_error a i with Some x => [x] | None => [] end) ++ (match nth_error b i with Some x => [x] | None => [] end) ++ interleave j (S i) a b
  end.
Definition lookup_a_aaaa (d : dns) (h : str) : option (list ip) :=
  match d_ip d h with
  | None => None
  | Some l => let a := v6s l in let b := v4s l in
              match interleave (Nat.max (length a) (length b)) 0 a b with [] => None | r => Some r end
  end.
(** lib.rs:437-530 [resolve_internal]; [enable_naptr] is a setting of the resolver *)
Definition resolve (enable_naptr : bool) (d : dns) (rs : list N) (u : sip_uri) : option (list target) :=
  let host := u_host u in
  let default_port := if u_sips u then 5061 else 5060 in
  if is_numeric_ip host then
    enforce_target_limit [unchecked_new host (match u_port u with Some p => p | None => default_port end) (default_transport u)]
  else match u_port u with
  | Some p =>
      match lookup_a_aaaa d host with
      | None => None
      | Some ips => enforce_target_limit (map (fun a => with_tls_name host (unchecked_new (ip_text a) p (default_transport u))) ips)
      end
  | None =>
      let allowed := if u_sips u then Some Tls else transport_param u in
      let naptrs := if enable_naptr then lookup_naptr d u allowed else None in
      let queries := match naptrs with
                     | Some l => map (fun r => (match nr_repl r with Some x => x | None => host end, nr_transport r)) l
                     | None => map (fun t => (host, t)) (default_transport_order u)
                     end in
      match srv_all d rs (u_sips u) queries with
      | [] => match lookup_a_aaaa d host with
              | None => None
              | Some [] => None
              | Some ips => enforce_target_limit (map (fun a => with_tls_name host (unchecked_new (ip_text a) default_port (default_transport u))) ips)
              end
      | ts => enforce_target_limit ts
      end
  end.
