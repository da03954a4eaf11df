(** Model of message parsing and serialisation (crates/sip-parse/src/lib.rs) and of
    the message constructors (crates/sip-core/src/msg.rs). *)
From Coq Require Import NArith Bool String List.
Import ListNotations.
From Verif Require Import Base Headers Method Text Uri Msg AnyUri ProxyCore.
Open Scope N_scope.
Open Scope list_scope.

(** sip-parse lib.rs:41 *)
Definition DEFAULT_MAX_MESSAGE_SIZE : N := 65536.
(** msg.rs:15-16 *)
Definition MAX_REASON_LENGTH : N := 256.
Definition MAX_BODY_SIZE : N := 10485760.
(** msg.rs:602-629 [validate_reason_phrase]; 163-178 [StatusLine::new] *)
Definition status_new (code : N) (reason : str) : option (N * str) :=
  if negb (in_range 100 699 code) then None
  else if MAX_REASON_LENGTH <? blen reason then None
  else if existsb is_ascii_control reason then None
  else Some (code, reason).
(** msg.rs:279-290 [Request::new]; 384-395 [Response::new]; 631-640 [validate_body_size] *)
Definition request_new (m : method) (u : uri) (hs : headers) (body : list N) : option req :=
  if MAX_BODY_SIZE <? llen body then None else Some (mkReq m u hs body).
Definition response_new (code : N) (reason : str) (hs : headers) (body : list N) : option resp :=
  if MAX_BODY_SIZE <? llen body then None else Some (mkResp code reason hs body).

Definition CRLF : str := [13; 10].
(** lib.rs:332-345 [split_head_body] *)
Definition split_head_body (d : list N) : option (str * list N) :=
  match find_sub [13; 10; 13; 10] d with
  | Some (h, b) => match from_utf8 h with Some s => Some (s, b) | None => None end
  | None => match from_utf8 d with Some s => Some (s, []) | None => None end
  end.
(** [str::split] with the pattern CR LF *)
Fixpoint split_crlf (s : str) : list str :=
  match s with
  | [] => [[]]
  | c :: r =>
      let next := match split_crlf r with [] => [[c]] | h :: t => (c :: h) :: t end in
      match r with
      | d :: r' => if (c =? 13) && (d =? 10) then [] :: split_crlf r' else next
      | [] => next
      end
  end.
(** lib.rs:348-373 [parse_headers] *)
Fixpoint parse_headers_from (acc : headers) (lines : list str) : option headers :=
  match lines with
  | [] => Some acc
  | [] :: r => parse_headers_from acc r
  | (c :: _) as line :: r =>
      if (c =? 32) || (c =? 9) then None
      else match split_once 58 line with
           | None => None
           | Some (n, v) => match hpush acc (canonical_name (trim n)) (trim v) with
                            | Err _ => None
                            | Ok acc' => parse_headers_from acc' r
                            end
           end
  end.
Definition parse_headers (lines : list str) : option headers := parse_headers_from [] lines.

(** lib.rs:515-535 [is_token_char], 538-540 [is_uri_char] *)
Definition req_token_char (c : N) : bool := is_alnum c || existsb (N.eqb c) (lit "!#$%&'*+-.^_`|~").
Definition req_uri_char (c : N) : bool := negb (is_ws c).
(** nom [space1] accepts blanks and tabs *)
Definition blank (c : N) : bool := (c =? 32) || (c =? 9).
(** nom [take_while1] *)
Definition take1 (p : N -> bool) (s : str) : option (str * str) :=
  match span p s with ([], _) => None | x => Some x end.
(** lib.rs:265-287 [parse_request_line] *)
Definition parse_request_line (line : str) : option (method * uri) :=
  match take1 req_token_char (trim line) with
  | None => None
  | Some (m, r) =>
  match take1 blank r with
  | None => None
  | Some (_, r) =>
  match take1 req_uri_char r with
  | None => None
  | Some (u, r) =>
  match take1 blank r with
  | None => None
  | Some (_, version) =>
      if eq_ic version (lit "SIP/2.0") then
        match method_from_token m, parse_any u with
        | Ok m, Some u => Some (m, to_uri u)
        | _, _ => None
        end
      else None
  end end end end.
(** lib.rs:290-309 [parse_status_line]; [tag_no_case] on the ASCII tag *)
Definition parse_status_line (line : str) : option (N * str) :=
  let line := trim line in
  if eq_ic (firstn 7 line) (lit "SIP/2.0") then
    match take1 blank (skipn 7 line) with
    | None => None
    | Some (_, r) =>
    match take1 is_digit r with
    | None => None
    | Some (d, r) =>
        if u16_max <? digits_value d then None
        else match take1 blank r with
             | None => None
             | Some (_, reason) => status_new (digits_value d) (trim reason)
             end
    end end
  else None.

(** lib.rs:462-494: Content-Length values; [usize] has 64 bits *)
Inductive cl_value := ClOk (n : N) | ClInvalid | ClOversized.
Definition MAX_CONTENT_LENGTH : N := 67108864.
Definition parse_cl (v : str) : cl_value :=
  match parse_uint u64_max (trim v) with
  | None => ClInvalid
  | Some n => if MAX_CONTENT_LENGTH <? n then ClOversized else ClOk n
  end.
(** lib.rs:425-440: several Content-Length headers; [None] is a rejection *)
Fixpoint common_length (first : option N) (vs : list str) : option (option N) :=
  match vs with
  | [] => Some first
  | v :: r =>
      match parse_cl v with
      | ClOk n => match first with
                  | Some m => if m =? n then common_length first r else None
                  | None => common_length (Some n) r
                  end
      | ClOversized => None
      | ClInvalid => common_length first r
      end
  end.
Definition CL : str := lit "Content-Length".
(** lib.rs:407-446 [extract_body] *)
Definition extract_body (body : list N) (hs : headers) : option (list N) :=
  let declared :=
    match hget_all CL hs with
    | [] => Some (llen body)
    | [v] => match parse_cl v with
             | ClOk n => Some n
             | ClOversized => None
             | ClInvalid => Some (llen body)
             end
    | vs => match common_length None vs with
            | None => None
            | Some (Some n) => Some n
            | Some None => Some (llen body)
            end
    end in
  match declared with
  | None => None
  | Some n => if llen body <? n then None else Some (firstn (N.to_nat n) body)
  end.
(** lib.rs:496-513 [strict_content_length] *)
Fixpoint strict_length (first : option N) (vs : list str) : option (option N) :=
  match vs with
  | [] => Some first
  | v :: r =>
      match parse_cl v with
      | ClOk n => match first with
                  | Some m => if m =? n then strict_length first r else None
                  | None => strict_length (Some n) r
                  end
      | _ => None
      end
  end.
(** lib.rs:109-120, 448-453: the declared length, and the body if it has it *)
Definition extract_body_strict (body : list N) (hs : headers) : option (list N) :=
  match strict_length None (hget_all CL hs) with
  | None => None
  | Some (Some n) => if n =? llen body then Some body else None
  | Some None => match body with [] => Some [] | _ => None end
  end.

(** lib.rs:549 *)
Definition MAX_CSEQ_NUMBER : N := 2147483647.
(** lib.rs:554-575 [parse_and_validate_cseq] *)
Definition parse_cseq (v : str) : option (N * str) :=
  match split_ws v with
  | [n; m] =>
      if negb (all_digits n) then None
      else match parse_uint u64_max n with
           | None => None
           | Some k => if (k =? 0) || (MAX_CSEQ_NUMBER <? k) then None else Some (k, m)
           end
  | _ => None
  end.
(** lib.rs:580-587 [cseq_matches], a malformed value counted as no match *)
Definition cseq_matches (hs : headers) (m : method) : bool :=
  match hget (lit "CSeq") hs with
  | None => true
  | Some v => match parse_cseq v with
              | Some (_, t) => eq_ic (method_str m) t
              | None => false
              end
  end.
(** lib.rs:592-597 [validate_response_cseq] *)
Definition response_cseq_ok (hs : headers) : bool :=
  match hget (lit "CSeq") hs with
  | None => true
  | Some v => is_some (parse_cseq v)
  end.
(** lib.rs:608-616 *)
Definition SINGLETON_HEADERS : list str :=
  [lit "Call-ID"; lit "CSeq"; lit "From"; lit "To"; lit "Max-Forwards"].
Definition singletons_unique (hs : headers) : bool :=
  forallb (fun n => llen (hget_all n hs) <=? 1) SINGLETON_HEADERS.
(** lib.rs:71-80: the branch of the first Via *)
Definition via_branch_ok (hs : headers) : bool :=
  match hget (lit "Via") hs with
  | None => true
  | Some v => match via_branch v with
              | Some b => valid_branch (trim b)
              | None => true
              end
  end.

(** lib.rs:54-87, 90-133 [parse_request_with_limit] and [.._strict]: they differ in
    how the body is taken *)
Definition parse_request_by (body_of : list N -> headers -> option (list N)) (max : N) (d : list N) : option req :=
  if max <? llen d then None
  else match split_head_body d with
  | None => None
  | Some (head, rest) =>
      match split_crlf head with
      | [] => None
      | first :: lines =>
          match trim first with
          | [] => None
          | _ =>
          match parse_request_line (trim first) with
          | None => None
          | Some (m, u) =>
          match parse_headers lines with
          | None => None
          | Some hs =>
              if negb (singletons_unique hs) then None
              else if negb (via_branch_ok hs) then None
              else match body_of rest hs with
                   | None => None
                   | Some body => if cseq_matches hs m then request_new m u hs body else None
                   end
          end end end
      end
  end.
(** lib.rs:44-46, 49-51 *)
Definition parse_request : list N -> option req := parse_request_by extract_body DEFAULT_MAX_MESSAGE_SIZE.
Definition parse_request_strict : list N -> option req := parse_request_by extract_body_strict DEFAULT_MAX_MESSAGE_SIZE.
(** lib.rs:136-160, 163-199 [parse_response] and [parse_response_strict] *)
Definition parse_response_by (body_of : list N -> headers -> option (list N)) (d : list N) : option resp :=
  if DEFAULT_MAX_MESSAGE_SIZE <? llen d then None
  else match split_head_body d with
  | None => None
  | Some (head, rest) =>
      match split_crlf head with
      | [] => None
      | first :: lines =>
          match trim first with
          | [] => None
          | _ =>
          match parse_status_line (trim first) with
          | None => None
          | Some (code, reason) =>
          match parse_headers lines with
          | None => None
          | Some hs =>
              if negb (singletons_unique hs) then None
              else if negb (response_cseq_ok hs) then None
              else match body_of rest hs with
                   | None => None
                   | Some body => response_new code reason hs body
                   end
          end end end
      end
  end.
Definition parse_response : list N -> option resp := parse_response_by extract_body.
Definition parse_response_strict : list N -> option resp := parse_response_by extract_body_strict.

(** lib.rs:618-630 [canonical_name]: the spelling of four names is normalised *)
Definition wire_name (n : str) : str :=
  if eq_ic n (lit "Via") then lit "Via"
  else if eq_ic n (lit "Contact") then lit "Contact"
  else if eq_ic n (lit "Route") then lit "Route"
  else if eq_ic n (lit "Record-Route") then lit "Record-Route"
  else n.
(** lib.rs:214-218, 253-257: headers that are not copied *)
Definition is_cl (h : header) : bool := eq_ic (fst h) CL || eq_ic (fst h) (lit "l").
Definition line_of (n v : str) : str := n ++ lit ": " ++ v ++ CRLF.
(** lib.rs:202-241 [serialize_request] *)
Definition serialize_request (q : req) : list N :=
  let hs := filter (fun h => negb (is_cl h)) (q_headers q) in
  utf8 (method_str (q_method q) ++ lit " " ++ uri_text (q_uri q) ++ lit " " ++ lit "SIP/2.0" ++ CRLF
        ++ flat_map (fun h => line_of (wire_name (fst h)) (trim (snd h))) hs
        ++ (if hcontains (lit "Max-Forwards") hs then [] else line_of (lit "Max-Forwards") (lit "70"))
        ++ line_of CL (print_N (llen (q_body q))) ++ CRLF)
  ++ q_body q.
(** lib.rs:244-276 [serialize_response] *)
Definition serialize_response (r : resp) : list N :=
  let hs := filter (fun h => negb (is_cl h)) (p_headers r) in
  utf8 (lit "SIP/2.0" ++ lit " " ++ print_N (p_code r) ++ lit " " ++ p_reason r ++ CRLF
        ++ flat_map (fun h => line_of (fst h) (snd h)) hs
        ++ line_of CL (print_N (llen (p_body r))) ++ CRLF)
  ++ p_body r.
