(** Model of the ICE candidates and the DTLS setup of a media section:
    crates/sip-sdp/src/attrs.rs:168-370, 501-562. *)
From Coq Require Import NArith Bool String List.
Import ListNotations.
From Verif Require Import Base Text Sdp.
Open Scope N_scope.
Open Scope list_scope.

(** attrs.rs:175-200 [CandidateTransport], [from_token], [as_str] *)
Inductive transport := TUdp | TTcp | TOther (s : str).
Definition transport_of (t : str) : transport :=
  if str_eqb (lower t) (lit "udp") then TUdp else if str_eqb (lower t) (lit "tcp") then TTcp else TOther t.
Definition transport_text (t : transport) : str := match t with TUdp => lit "udp" | TTcp => lit "tcp" | TOther s => s end.
(** 203-230 [CandidateType], [from_token], [as_str] *)
Inductive kind := Host | ServerReflexive | PeerReflexive | Relay | KOther (s : str).
Definition kind_of (t : str) : kind :=
  if str_eqb t (lit "host") then Host else if str_eqb t (lit "srflx") then ServerReflexive else if str_eqb t (lit "prflx") then PeerReflexive
  else if str_eqb t (lit "relay") then Relay else KOther t.
Definition kind_text (k : kind) : str :=
  match k with Host => lit "host" | ServerReflexive => lit "srflx" | PeerReflexive => lit "prflx" | Relay => lit "relay" | KOther s => s end.
(** 235-247 [Candidate]: all fields are public *)
Record candidate := mkCandidate { k_foundation : str; k_component : N; k_transport : transport; k_priority : N; k_address : str; k_port : N; k_kind : kind;
  k_raddr : option str; k_rport : option N; k_ext : list (str * str) }.

(** 265-275: the pairs at the end; the lists so far are arguments *)
Fixpoint read_pairs (ws : list str) (ra : option str) (rp : option N) (ext : list (str * str)) : option (option str * option N * list (str * str)) :=
  match ws with
  | [] => Some (ra, rp, ext)
  | [_] => None
  | key :: val :: r =>
      if str_eqb key (lit "raddr") then read_pairs r (Some val) rp ext
      else if str_eqb key (lit "rport") then match parse_uint u16_max val with Some p => read_pairs r ra (Some p) ext | None => None end
      else read_pairs r ra rp (ext ++ [(key, val)])
  end.
(** 249-288 [parse_candidate_value] *)
Definition read_candidate (v : str) : option candidate :=
  match split_ws v with
  | f :: c :: t :: p :: a :: o :: y :: k :: rest =>
      match parse_uint u32_max c, parse_uint u32_max p, parse_uint u16_max o with
      | Some c', Some p', Some o' =>
          if str_eqb y (lit "typ") then
            match read_pairs rest None None [] with
            | Some (ra, rp, ext) => Some (mkCandidate f c' (transport_of t) p' a o' (kind_of k) ra rp ext)
            | None => None
            end
          else None
      | _, _, _ => None
      end
  | _ => None
  end.
(** 291-314 [to_attr_value] *)
Definition pair_text (p : str * str) : str := lit " " ++ fst p ++ lit " " ++ snd p.
Definition write_candidate (c : candidate) : str :=
  k_foundation c ++ lit " " ++ print_N (k_component c) ++ lit " " ++ transport_text (k_transport c) ++ lit " " ++ print_N (k_priority c) ++ lit " " ++ k_address c ++ lit " "
  ++ print_N (k_port c) ++ lit " typ " ++ kind_text (k_kind c)
  ++ match k_raddr c with Some a => lit " raddr " ++ a | None => [] end
  ++ match k_rport c with Some p => lit " rport " ++ print_N p | None => [] end
  ++ flat_map pair_text (k_ext c).

(** 502-509 [candidates] *)
Definition candidate_of (a : attribute) : option candidate := match a with AVal n v => if str_eqb n (lit "candidate") then read_candidate v else None | AProp _ => None end.
Definition candidates (l : list attribute) : list candidate := flat_map (fun a => match candidate_of a with Some c => [c] | None => [] end) l.
(** 513-518 [add_candidate] *)
Definition add_candidate (l : list attribute) (c : candidate) : list attribute := l ++ [AVal (lit "candidate") (write_candidate c)].
(** 521-523 [clear_candidates] *)
Definition clear_candidates (l : list attribute) : list attribute := filter (fun a => negb (has_name (lit "candidate") a)) l.

(** 338-366 [Setup], [as_token], [from_token] *)
Inductive setup := SActive | SPassive | SActPass | SHoldConn.
Definition setup_text (s : setup) : str := match s with SActive => lit "active" | SPassive => lit "passive" | SActPass => lit "actpass" | SHoldConn => lit "holdconn" end.
Definition setup_of (t : str) : option setup :=
  if str_eqb t (lit "active") then Some SActive else if str_eqb t (lit "passive") then Some SPassive else if str_eqb t (lit "actpass") then Some SActPass
  else if str_eqb t (lit "holdconn") then Some SHoldConn else None.
(** 541-548 [setup], [set_setup] *)
Definition get_setup (l : list attribute) : option setup := match value_attr (lit "setup") l with Some v => setup_of v | None => None end.
Definition set_setup (l : list attribute) (s : setup) : list attribute := set_value_attr (lit "setup") (setup_text s) l.

(** 321-335 [Fingerprint], [parse_fingerprint_value]; 529-536 [fingerprints] *)
Record fingerprint := mkFp { f_hash : str; f_print : str }.
Definition read_fingerprint (v : str) : option fingerprint := match split_once 32 v with Some (h, r) => Some (mkFp h (trim r)) | None => None end.
(** 376-397 [Ssrc], [parse_ssrc_value] *)
Record ssrc := mkSsrc { s_id : N; s_attr : str; s_value : option str }.
Definition read_ssrc (v : str) : option ssrc :=
  match split_once 32 v with
  | None => None
  | Some (i, r) =>
      match parse_uint u32_max i with
      | None => None
      | Some n => Some (match split_once 58 (trim r) with Some (a, x) => mkSsrc n a (Some x) | None => mkSsrc n (trim r) None end)
      end
  end.
