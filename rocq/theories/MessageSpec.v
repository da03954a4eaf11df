(** What it means that a message survives the wire (specification only). *)
From Coq Require Import NArith Bool String List.
Import ListNotations.
From Verif Require Import Base Headers Method Text Uri Msg AnyUri.
Open Scope N_scope.
Open Scope list_scope.

(** RFC 3261 7.3.3 and later RFCs: compact header names and what they stand for *)
Definition compact_forms : list (string * string) :=
  [("i", "Call-ID"); ("f", "From"); ("t", "To"); ("m", "Contact"); ("l", "Content-Length");
   ("s", "Subject"); ("k", "Supported"); ("o", "Event"); ("e", "Content-Encoding"); ("c", "Content-Type");
   ("v", "Via"); ("r", "Refer-To"); ("b", "Referred-By"); ("d", "Request-Disposition");
   ("x", "Session-Expires"); ("a", "Accept-Contact"); ("u", "Allow-Events")]%string.
(** [n] means the header [l]: they are the same name or [n] is its compact form;
    letter case does not matter *)
Definition means (n l : str) : Prop :=
  (exists a b, In (a, b) compact_forms /\ lower n = lit a /\ lower l = lower (lit b))
  \/ ((forall a b, In (a, b) compact_forms -> lower n <> lit a) /\ lower n = lower l).
(** a header as sent and as received: same name, value without the white space at
    its ends *)
Definition received (h h' : header) : Prop := means (fst h) (fst h') /\ snd h' = trim (snd h).
Definition length_header (h : header) : bool := eq_ic (fst h) (lit "Content-Length") || eq_ic (fst h) (lit "l").
Definition length_of (body : list N) : header := (lit "Content-Length", print_N (llen body)).

(** the request [q'] is [q] as seen by the receiver: all headers but Content-Length in
    order, Max-Forwards if it was missing, and one Content-Length, last *)
Definition arrived_request (q q' : req) : Prop :=
  q_method q' = q_method q /\ q_uri q' = q_uri q /\ q_body q' = q_body q
  /\ exists front, Forall2 received (filter (fun h => negb (length_header h)) (q_headers q)) front
     /\ q_headers q' = front
          ++ (if hcontains (lit "Max-Forwards") (q_headers q) then [] else [(lit "Max-Forwards", lit "70")])
          ++ [length_of (q_body q)].
Definition arrived_response (r r' : resp) : Prop :=
  p_code r' = p_code r /\ p_reason r' = p_reason r /\ p_body r' = p_body r
  /\ exists front, Forall2 received (filter (fun h => negb (length_header h)) (p_headers r)) front
     /\ p_headers r' = front ++ [length_of (p_body r)].

(** Rust strings throughout *)
Definition text_headers (hs : headers) : Prop := forall h, In h hs -> is_str (snd h) = true.
(** Request-URIs without white space whose text parses back to them (what of the URI
    type this is, is C56) *)
Definition plain_uri (u : uri) : Prop :=
  is_str (uri_text u) = true /\ (forall c, In c (uri_text u) -> is_ws c = false)
  /\ exists a, parse_any (uri_text u) = Some a
     /\ u = match a with ASip s => SipU s | ATel t => OtherU (t_raw t) | AAbs t => OtherU t end.
(** methods the API makes from text *)
Definition api_method (m : method) : Prop := exists t, method_from_token t = Ok m.

(** headers that may occur once *)
Definition once_each : list string := ["Call-ID"; "CSeq"; "From"; "To"; "Max-Forwards"]%string.
(** a CSeq value: a number in 1..2^31-1 written in digits, white space, a method *)
Definition cseq_value (v : str) (n : N) (m : str) : Prop :=
  exists d, split_ws v = [d; m] /\ forallb is_digit d = true /\ digits_value d = n /\ 1 <= n <= 2147483647.
(** RFC 3261 8.1.1.7 branch ids, at most 256 bytes long *)
Definition rfc3261_branch (b : str) : Prop :=
  8 <= blen b <= 256 /\ (exists r, b = lit "z9hG4bK" ++ r)
  /\ forall c, In c b -> is_alnum c = true \/ In c (lit "-.!%*_+`'~").
(** the rules for headers that requests and responses are held to *)
Definition no_repeats (hs : headers) : Prop :=
  forall n, In n once_each -> llen (hget_all (lit n) hs) <= 1.
Definition cseq_in_range (hs : headers) : Prop :=
  forall v, hget (lit "CSeq") hs = Some v -> exists n m, cseq_value v n m.
Definition cseq_of (hs : headers) (m : method) : Prop :=
  forall v, hget (lit "CSeq") hs = Some v -> exists n t, cseq_value v n t /\ lower t = lower (method_str m).
Definition top_branch_ok (hs : headers) : Prop :=
  forall v p r, hget (lit "Via") hs = Some v -> In p (split_on 59 v) -> trim p = lit "branch=" ++ r -> rfc3261_branch (trim r).

(** ** Messages as bytes *)
(** the end of the header part: a blank line *)
Definition BLANK : list N := [13; 10; 13; 10].
(** the bytes [d] are the header text [head], then [body]: all that follows the first
    blank line (nothing, if there is none) *)
Definition framed (d : list N) (head : str) (body : list N) : Prop :=
  (d = utf8 head ++ BLANK ++ body /\ forall a b, d = a ++ BLANK ++ b -> llen (utf8 head) <= llen a)
  \/ (d = utf8 head /\ body = [] /\ forall a b, d <> a ++ BLANK ++ b).
(** the lines of the header text *)
Definition lines_of (head : str) (lines : list str) : Prop :=
  head = join [13; 10] lines /\ lines <> [] /\ forall x a b, In x lines -> x <> a ++ [13; 10] ++ b.
(** a line and the header read from it *)
Definition header_line (l : str) (h : header) : Prop :=
  exists n v, l = n ++ [58] ++ v /\ ~ In 58 n /\ means (trim n) (fst h) /\ snd h = trim v.
(** a number as Rust reads it: digits, possibly with a plus sign in front *)
Definition reads_as (v : str) (n : N) : Prop :=
  exists ds, (trim v = ds \/ trim v = 43 :: ds) /\ ds <> [] /\ forallb is_digit ds = true /\ digits_value ds = n.
Definition nonempty (l : str) : bool := match l with [] => false | _ => true end.
(** every Content-Length header says how long the body is, and a message without one
    has no body *)
Definition length_agrees (hs : headers) (body : list N) : Prop :=
  (forall v, In v (hget_all (lit "Content-Length") hs) -> reads_as v (llen body))
  /\ (body <> [] -> hget_all (lit "Content-Length") hs <> []).

(** what a lenient reader makes of the bytes [rest] after the empty line: every
    Content-Length that is a number (of 64 bits) says how many of them are the body;
    if none is, all are *)
Definition length_taken (hs : headers) (body rest : list N) : Prop :=
  (exists tail, rest = body ++ tail)
  /\ (forall v n, In v (hget_all (lit "Content-Length") hs) -> reads_as v n -> n < 2 ^ 64 -> llen body = n)
  /\ ((forall v n, In v (hget_all (lit "Content-Length") hs) -> reads_as v n -> 2 ^ 64 <= n) -> body = rest).

(** Request-URIs made through the API: built step by step or parsed *)
Definition api_uri (u : uri) : Prop :=
  (exists start ops s, uri_build start ops = Some s /\ u = SipU s)
  \/ (exists t a, parse_any t = Some a
      /\ u = match a with ASip s => SipU s | ATel t => OtherU (t_raw t) | AAbs t => OtherU t end).
(** [bytes] are the start line, one line per element of [lines], an empty line and the
    body; no line holds a CR or LF of its own *)
Definition laid_out (bytes : list N) (start : str) (lines : list str) (body : list N) : Prop :=
  bytes = utf8 (flat_map (fun l => l ++ [13; 10]) (start :: lines) ++ [13; 10]) ++ body
  /\ forall l, In l (start :: lines) -> l <> [] /\ ~ In 13 l /\ ~ In 10 l.
(** the line of a header, its name in any case, its value without white space around it *)
Definition line_for (h : header) (l : str) : Prop :=
  exists n, lower n = lower (fst h) /\ (l = n ++ lit ": " ++ trim (snd h) \/ l = n ++ lit ": " ++ snd h).
