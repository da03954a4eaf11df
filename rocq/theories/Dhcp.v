(** Model of the DHCP options (crates/sip-dns/src/lib.rs:830-1085) and of ENUM
    (crates/sip-dns/src/enum_lookup.rs). Error payloads are dropped. *)
From Coq Require Import NArith Bool String List Arith.
Import ListNotations.
From Verif Require Import Base Text AnyUri Msg.
Open Scope N_scope.
Open Scope list_scope.

(** lib.rs:913-919 [DhcpSipServer] *)
Inductive server := Domain (name : str) | Ipv4 (a b c d : N).
(** [String::from_utf8_lossy]: valid text as it is; what is made of other bytes is the argument [garbled] *)
Definition lossy (garbled : list N -> str) (b : list N) : str := match from_utf8 b with Some s => s | None => garbled b end.

(** [&data[a..b]]: [None] where Rust panics *)
Definition slice (d : list N) (a b : nat) : option (list N) :=
  if (a <=? b)%nat && (b <=? length d)%nat then Some (firstn (b - a) (skipn a d)) else None.
(** lib.rs:1003-1030: the labels of one name; out of fuel counts as a failure, like a panic *)
Fixpoint read_labels (fuel : nat) (d : list N) (pos : nat) (labels : list (list N)) : outcome (option (list (list N) * nat)) :=
  match fuel with
  | O => Panics
  | S f =>
      if (length d <=? pos)%nat then Ret None
      else match nth_error d pos with
      | None => Panics
      | Some len =>
          let pos := S pos in
          if len =? 0 then Ret (Some (labels, pos))
          else if 63 <? len then Ret None
          else if (length d <? pos + N.to_nat len)%nat then Ret None
          else match slice d pos (pos + N.to_nat len) with
               | None => Panics
               | Some label => read_labels f d (pos + N.to_nat len) (labels ++ [label])
               end
      end
  end.
(** lib.rs:996-1049 [parse_dhcp_domain_names] *)
Fixpoint read_names (g : list N -> str) (fuel : nat) (d : list N) (pos : nat) (servers : list server) : outcome (option (list server)) :=
  match fuel with
  | O => Panics
  | S f =>
      if (pos <? length d)%nat then
        match read_labels (S (length d)) d pos [] with
        | Panics => Panics
        | Ret None => Ret None
        | Ret (Some ([], _)) => Ret None
        | Ret (Some (labels, pos')) => read_names g f d pos' (servers ++ [Domain (join (lit ".") (map (lossy g) labels))])
        end
      else match servers with [] => Ret None | _ => Ret (Some servers) end
  end.
Definition parse_names (g : list N -> str) (d : list N) := read_names g (S (length d)) d 0 [].
(** [chunks_exact(4)] *)
Fixpoint chunks4 (d : list N) : list (N * N * N * N) :=
  match d with
  | a :: b :: c :: e :: r => (a, b, c, e) :: chunks4 r
  | _ => []
  end.
(** lib.rs:1055-1075 [parse_dhcp_ipv4_addresses] *)
Definition parse_addresses (d : list N) : option (list server) :=
  if negb (llen d mod 4 =? 0) then None
  else match map (fun x => let '(a, b, c, e) := x in Ipv4 a b c e) (chunks4 d) with [] => None | l => Some l end.
(** lib.rs:970-985 [parse_dhcp_option_120] *)
Definition parse_option_120 (g : list N -> str) (d : list N) : outcome (option (list server)) :=
  match d with
  | [] => Ret None
  | e :: p => if e =? 0 then parse_names g p else if e =? 1 then Ret (parse_addresses p) else Ret None
  end.
(** lib.rs:880-905 [parse_dhcp_option_150] *)
Definition parse_option_150 (d : list N) : option (list (N * N * N * N)) :=
  match d with
  | [] => None
  | _ => if negb (llen d mod 4 =? 0) then None else match chunks4 d with [] => None | l => Some l end
  end.
(** lib.rs:853-861 [parse_dhcp_option_66] *)
Definition parse_option_66 (g : list N -> str) (d : list N) : option str := match d with [] => None | _ => Some (lossy g d) end.

(** enum_lookup.rs:56-80 [enum_to_domain] *)
Definition enum_to_domain (n : str) : option str :=
  match strip_prefix [43] n with
  | None => None
  | Some [] => None
  | Some digits =>
      if forallb is_digit digits then Some (join (lit ".") (map (fun c => [c]) (rev digits)) ++ lit ".e164.arpa") else None
  end.
(** enum_lookup.rs:104-110 [tel_uri_to_enum_domain] *)
Definition tel_uri_to_enum_domain (t : tel_uri) : option str := if t_global t then enum_to_domain (t_number t) else None.
(** enum_lookup.rs:117-130 [EnumNaptrRecord] *)
Record enum_rr := mkEnum { en_order : N; en_pref : N; en_flags : str; en_service : str; en_regexp : str; en_repl : str }.
(** enum_lookup.rs:153-160 *)
Definition is_sip_service (r : enum_rr) : bool := eq_ic (en_service r) (lit "E2U+sip").
Definition is_terminal (r : enum_rr) : bool := mem 117 (en_flags r) || mem 85 (en_flags r).
(** enum_lookup.rs:198-219: the parts between the delimiters *)
Fixpoint parts (delim : N) (escaped : bool) (cur : str) (s : str) : list str :=
  match s with
  | [] => [cur]
  | c :: r =>
      if escaped then parts delim false (cur ++ [c]) r
      else if c =? 92 then parts delim true (cur ++ [c]) r
      else if c =? delim then cur :: parts delim false [] r
      else parts delim false (cur ++ [c]) r
  end.
(** enum_lookup.rs:184-236 [extract_uri] *)
Definition extract_uri (r : enum_rr) : option str :=
  match trim (en_regexp r) with
  | [] => None
  | delim :: s =>
      match parts delim false [] s with
      | _ :: (c :: u) :: _ => Some (c :: u)
      | _ => None
      end
  end.
(** enum_lookup.rs:256-267 [sort_enum_records]: a stable sort *)
Definition enum_leb (a b : enum_rr) : bool := if en_order a =? en_order b then en_pref a <=? en_pref b else en_order a <? en_order b.
Fixpoint ins_enum (x : enum_rr) (l : list enum_rr) : list enum_rr :=
  match l with [] => [x] | y :: r => if enum_leb x y then x :: l else y :: ins_enum x r end.
Definition sort_enum (l : list enum_rr) : list enum_rr := fold_right ins_enum [] l.
(** enum_lookup.rs:280-286, 300-311 *)
Definition filter_sip_records (l : list enum_rr) : list enum_rr := filter is_sip_service l.
Definition select_best (l : list enum_rr) : option enum_rr := hd_error (sort_enum (filter_sip_records l)).
