(** Model of the framing of SIP messages on stream transports and of the choice of
    transport (crates/sip-transport/src/lib.rs). *)
From Coq Require Import NArith Bool String List.
Import ListNotations.
From Verif Require Import Base Text.
Open Scope N_scope.
Open Scope list_scope.

(** lib.rs:75, 81, 85 *)
Definition MAX_HEADER_SIZE : N := 65536.
Definition MAX_STREAM_BODY : N := 10485760.
Definition MAX_BUFFER_SIZE : N := 16777216.

(** lib.rs:1966-1982 [consume_leading_crlf]: "\r\n", "\n" and "\r" are removed one after
    the other, which removes every leading CR and LF *)
Fixpoint consume_leading_crlf (b : list N) : list N :=
  match b with
  | [] => b
  | c :: r =>
      if c =? 13 then
        match r with
        | d :: r' => if d =? 10 then consume_leading_crlf r' else consume_leading_crlf r
        | [] => consume_leading_crlf r
        end
      else if c =? 10 then consume_leading_crlf r
      else b
  end.

(** [u8::is_ascii_whitespace] (no vertical tab) *)
Definition ascii_ws (c : N) : bool := (c =? 32) || (c =? 9) || (c =? 10) || (c =? 12) || (c =? 13).
(** lib.rs:2015-2025 [trim_ascii_whitespace] *)
Definition trim_ascii (s : list N) : list N := trim_by ascii_ws s.
(** lib.rs:2036-2052 [parse_ascii_usize]; usize has 64 bits *)
Fixpoint ascii_usize_from (acc : N) (v : list N) : option N :=
  match v with
  | [] => Some acc
  | b :: r =>
      if negb (is_digit b) then None
      else if u64_max <? acc * 10 then None
      else if u64_max <? acc * 10 + (b - 48) then None
      else ascii_usize_from (acc * 10 + (b - 48)) r
  end.
Definition parse_ascii_usize (v : list N) : option N :=
  match v with [] => None | _ => ascii_usize_from 0 v end.

(** lib.rs:1987-1991: a line ends with LF or CR LF *)
Fixpoint drop_last_cr (l : list N) : list N :=
  match l with
  | [] => []
  | [c] => if c =? 13 then [] else [c]
  | c :: r => c :: drop_last_cr r
  end.
(** lib.rs:1984-2013 [parse_content_length]: one turn of the loop; the outer [None] is an
    error *)
Definition content_length_line (found : option N) (line : list N) : option (option N) :=
  match split_once 58 (drop_last_cr line) with
  | None => Some found
  | Some (n, v) =>
      let name := trim_ascii n in
      (* lib.rs:2027-2034 [ascii_eq_ignore_case] *)
      if negb (eq_ic name (lit "content-length")) && negb (eq_ic name (lit "l")) then Some found
      else match parse_ascii_usize (trim_ascii v) with
           | None => None
           | Some p => match found with
                       | Some e => if e =? p then Some found else None
                       | None => Some (Some p)
                       end
           end
  end.
Fixpoint content_length_lines (found : option N) (lines : list (list N)) : option (option N) :=
  match lines with
  | [] => Some found
  | l :: r => match content_length_line found l with Some f => content_length_lines f r | None => None end
  end.
Definition parse_content_length (head : list N) : option (option N) := content_length_lines None (split_on 10 head).

(** one turn of the loop of [drain_sip_frames] *)
Inductive turn := Frame (f rest : list N) | Wait (rest : list N) | Bad.
Definition next_frame (buf : list N) : turn :=
  match consume_leading_crlf buf with
  | [] => Wait []
  | _ as b =>
      match find_sub [13; 10; 13; 10] b with
      | None => if MAX_HEADER_SIZE <? llen b then Bad else Wait b
      | Some (head, _) =>
          if MAX_HEADER_SIZE <? llen head then Bad
          else match parse_content_length head with
          | None => Bad
          | Some None => Bad
          | Some (Some cl) =>
              if MAX_STREAM_BODY <? cl then Bad
              else let needed := llen head + 4 + cl in
                   if llen b <? needed then Wait b
                   else Frame (firstn (N.to_nat needed) b) (skipn (N.to_nat needed) b)
          end
      end
  end.
(** lib.rs:1892-1964 [drain_sip_frames]: the frames and what stays in the buffer, or an
    error; every frame takes at least four bytes, so the fuel never runs out *)
Fixpoint drain_fuel (fuel : nat) (buf : list N) : option (list (list N) * list N) :=
  match fuel with
  | O => None
  | S k => match next_frame buf with
           | Bad => None
           | Wait r => Some ([], r)
           | Frame f r => match drain_fuel k r with Some (fs, r') => Some (f :: fs, r') | None => None end
           end
  end.
Definition drain_sip_frames (buf : list N) : option (list (list N) * list N) := drain_fuel (S (length buf)) buf.

(** lib.rs:1773-1875 (TCP), 1566-1665 (TLS), pool.rs:600-640 (outgoing connections): the read
    loop.  Each element of [chunks] is what one read returns.  The buffer is checked
    before each read; an error drops the frames of that read and closes the connection.
    Not modelled: the rate limiter between framing and dispatch, timeouts, write errors. *)
Record session := mkSession { delivered : list (list N); buffer : list N; open : bool }.
Definition read_chunk (s : session) (chunk : list N) : session :=
  if negb (open s) then s
  else if MAX_BUFFER_SIZE <=? llen (buffer s) then mkSession (delivered s) (buffer s) false
  else match drain_sip_frames (buffer s ++ chunk) with
       | Some (fs, rest) => mkSession (delivered s ++ fs) rest true
       | None => mkSession (delivered s) (buffer s ++ chunk) false
       end.
Definition run_session (chunks : list (list N)) : session := fold_left read_chunk chunks (mkSession [] [] true).

(** ** Choice of transport *)
(** lib.rs:208-222 [TransportKind]; 328-333 [is_secure] *)
Inductive transport := TUdp | TTcp | TTls | TSctp | TTlsSctp | TWs | TWss.
Definition is_secure (t : transport) : bool := match t with TTls | TTlsSctp | TWss => true | _ => false end.
(** lib.rs:1481-1490 [DefaultTransportPolicy::choose] *)
Definition choose (udp_mtu : N) (requested : transport) (payload_len : N) (sips : bool) : transport :=
  if sips && negb (is_secure requested) then TTls
  else match requested with
       | TUdp => if udp_mtu <? payload_len then TTcp else requested
       | _ => requested
       end.

(** bins/siphond/src/transport.rs:222-246 [SiphonTransportDispatcher::dispatch]: the transport
    a message leaves on; whether the peer has an open stream decides the fallback *)
Definition dispatch_target (udp_mtu : N) (desired : transport) (payload_len : N) (has_stream : bool) : transport :=
  let selected := choose udp_mtu desired payload_len (match desired with TTls | TWss | TTlsSctp => true | _ => false end) in
  match selected with
  | TTcp | TTls => if negb has_stream then desired else selected
  | other => other
  end.
