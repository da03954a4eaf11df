(** Model of digest authentication (crates/sip-auth/src/lib.rs), of the
    Authorization header parser (crates/sip-parse/src/header_values.rs) and of
    its container (crates/sip-core/src/auth.rs).

    Time is in nanoseconds.  The hash functions (MD5, SHA-256, SHA-512) and the
    random generators are not modelled: the hash is a parameter [H] of every
    definition that uses it, random strings are arguments. *)
From Coq Require Import String NArith Bool List.
Import ListNotations.
From Verif Require Import Base Headers Method RateLimit.
Open Scope N_scope.

(** the parts of a request the authenticator reads: the URI is its text
    ([request.uri().as_str()]), the body is bytes *)
Record areq := mkAreq { aq_method : method; aq_uri : str; aq_headers : headers; aq_body : list N }.

(** [str::as_bytes]: UTF-8 encoding *)
Definition utf8_c (c : N) : list N :=
  if c <? 128 then [c]
  else if c <? 2048 then [192 + c / 64; 128 + c mod 64]
  else if c <? 65536 then [224 + c / 4096; 128 + c / 64 mod 64; 128 + c mod 64]
  else [240 + c / 262144; 128 + c / 4096 mod 64; 128 + c / 64 mod 64; 128 + c mod 64].
Definition as_bytes (s : str) : list N := flat_map utf8_c s.

(** ** Algorithms and qop *)
(** lib.rs:295-308; hash function and session flag *)
Inductive hash_fn := Md5 | Sha256 | Sha512 | Sha512_256.
Record algorithm := mkAlg { al_hash : hash_fn; al_sess : bool }.
Definition hash_eqb (a b : hash_fn) : bool :=
  match a, b with
  | Md5, Md5 | Sha256, Sha256 | Sha512, Sha512 | Sha512_256, Sha512_256 => true
  | _, _ => false
  end.
(** derived [PartialEq] *)
Definition alg_eqb (a b : algorithm) : bool :=
  hash_eqb (al_hash a) (al_hash b) && Bool.eqb (al_sess a) (al_sess b).
(** lib.rs:311-322 [as_str] *)
Definition alg_str (a : algorithm) : str :=
  match a with
  | mkAlg Md5 false => lit "MD5" | mkAlg Md5 true => lit "MD5-sess"
  | mkAlg Sha256 false => lit "SHA-256" | mkAlg Sha256 true => lit "SHA-256-sess"
  | mkAlg Sha512 false => lit "SHA-512" | mkAlg Sha512 true => lit "SHA-512-sess"
  | mkAlg Sha512_256 false => lit "SHA-512-256" | mkAlg Sha512_256 true => lit "SHA-512-256-sess"
  end.
Definition all_algs : list algorithm :=
  [mkAlg Md5 false; mkAlg Md5 true; mkAlg Sha256 false; mkAlg Sha256 true; mkAlg Sha512 false;
   mkAlg Sha512 true; mkAlg Sha512_256 false; mkAlg Sha512_256 true].
(** lib.rs:324-340 [parse] *)
Definition alg_parse (s : str) : option algorithm :=
  find (fun a => str_eqb (upper s) (upper (alg_str a))) all_algs.

(** lib.rs:385-405 [Qop] *)
Inductive qop := QAuth | QAuthInt.
Definition qop_str (q : qop) : str := match q with QAuth => lit "auth" | QAuthInt => lit "auth-int" end.
Definition qop_parse (s : str) : option qop :=
  if str_eqb (lower s) (lit "auth") then Some QAuth
  else if str_eqb (lower s) (lit "auth-int") then Some QAuthInt else None.
Definition qop_eqb (a b : qop) : bool :=
  match a, b with QAuth, QAuth | QAuthInt, QAuthInt => true | _, _ => false end.

(** ** Authorization header (sip-core auth.rs, sip-parse header_values.rs) *)
Record auth_header := mkAh { ah_scheme : str; ah_params : list (str * str) }.

(** auth.rs:139-160 [is_token_char] *)
Definition is_token_char (c : N) : bool := is_alnum c || existsb (N.eqb c) (lit "!#$%&'*+-.^_`|~").
(** auth.rs:53-84 [validate_scheme] *)
Definition scheme_ok (s : str) : bool :=
  match s with
  | [] => false
  | _ => (blen s <=? 64) && negb (existsb is_control s) && forallb is_token_char s
  end.
(** auth.rs:87-116 [validate_param_name] *)
Definition pname_ok (s : str) : bool :=
  match s with
  | [] => false
  | _ => (blen s <=? 64) && negb (existsb is_control s) && forallb is_token_char s
  end.
(** auth.rs:119-136 [validate_param_value]: the limit is 256 bytes *)
Definition pvalue_ok (s : str) : bool :=
  (blen s <=? 256) && negb (existsb (fun c => is_control c && negb (c =? 9)) s).

(** header_values.rs:553-597 [split_quoted_commas]; also the scanner of
    lib.rs:1550-1587 [split_auth_info_params], which differs only in having no
    limit and in not refusing an unclosed quote.  [cur] is reversed. *)
Fixpoint scan_commas (inq esc : bool) (cur : str) (s : str) : list str * bool :=
  match s with
  | [] => ([rev cur], inq)
  | c :: r =>
      if esc then scan_commas inq false (c :: cur) r
      else if (c =? 92) && inq then scan_commas inq true (c :: cur) r
      else if c =? 34 then scan_commas (negb inq) false (c :: cur) r
      else if (c =? 44) && negb inq then
        let '(parts, q) := scan_commas inq false [] r in (rev cur :: parts, q)
      else scan_commas inq false (c :: cur) r
  end.
Definition nonblank_trimmed (l : list str) : list str :=
  filter (fun p => match p with [] => false | _ => true end) (map trim l).
Definition split_quoted_commas (mx : N) (s : str) : option (list str) :=
  let '(parts, inq) := scan_commas false false [] s in
  let ps := nonblank_trimmed parts in
  if mx <? llen ps then None else if inq then None else Some ps.

(** [str::trim_matches] of the double quote *)
Definition trim_quotes (s : str) : str := trim_by (N.eqb 34) s.

(** one pass of header_values.rs:539-547; later duplicates are refused *)
Fixpoint auth_params (ps : list str) (acc : list (str * str)) : option (list (str * str)) :=
  match ps with
  | [] => Some acc
  | p :: r =>
      match split_once 61 p with
      | None => None
      | Some (n, v) =>
          let k := lower (trim n) in
          if is_some (lookup str_eqb k acc) then None
          else auth_params r (acc ++ [(k, trim_quotes (trim v))])
      end
  end.
(** auth.rs:253-286 [from_raw]: names are lower case and distinct already *)
Definition from_raw (scheme : str) (ps : list (str * str)) : option auth_header :=
  if scheme_ok scheme && forallb (fun p => pname_ok (fst p) && pvalue_ok (snd p)) ps
     && (llen ps <=? 30)
  then Some (mkAh scheme ps) else None.
(** header_values.rs:529-550 [parse_auth_like_header] *)
Definition parse_authorization (value : str) : option auth_header :=
  match trim value with
  | [] => None
  | t =>
      let '(scheme, rest) := match split_once 32 t with Some p => p | None => (t, []) end in
      match split_quoted_commas 64 rest with
      | None => None
      | Some parts => match auth_params parts [] with
                      | None => None
                      | Some ps => from_raw (trim scheme) ps
                      end
      end
  end.
(** auth.rs:314-316 [param] *)
Definition param (name : str) (a : auth_header) : option str := lookup str_eqb (lower name) (ah_params a).

(** ** Nonces *)
(** lib.rs:438-447 [Nonce]; the value is the key of the table *)
Record nonce := mkNonce { nn_created : N; nn_ttl : N; nn_last_nc : N;
                          nn_hash : option str; nn_used : N }.
(** lib.rs:449-465 [Nonce::new] *)
Definition nonce_new (ttl now : N) : nonce := mkNonce now ttl 0 None now.
(** lib.rs:467-469 [is_valid] *)
Definition nonce_valid (now : N) (n : nonce) : bool := now - nn_created n <=? nn_ttl n.

(** lib.rs:564-590 [NonceManager] *)
Record nmgr := mkNm { nm_nonces : list (str * nonce); nm_ttl : N; nm_max : N; nm_age : N }.
Definition set_nonces (m : nmgr) t := mkNm t (nm_ttl m) (nm_max m) (nm_age m).
(** lib.rs:670-672 [cleanup] *)
Definition nm_cleanup (now : N) (m : nmgr) : nmgr :=
  set_nonces m (filter (fun p => nonce_valid now (snd p)) (nm_nonces m)).
(** lib.rs:684-701 [remove_oldest]: stable sort by creation time, then remove
    the first [count] keys *)
Fixpoint ins_by_age (x : str * nonce) (l : list (str * nonce)) : list (str * nonce) :=
  match l with
  | [] => [x]
  | y :: r => if nn_created (snd x) <=? nn_created (snd y) then x :: l else y :: ins_by_age x r
  end.
Definition by_age (l : list (str * nonce)) : list (str * nonce) := fold_right ins_by_age [] l.
Definition remove_oldest (count : N) (m : nmgr) : nmgr :=
  set_nonces m
    (fold_left (fun t k => remove_key str_eqb k t)
       (map fst (firstn (N.to_nat count) (by_age (nm_nonces m)))) (nm_nonces m)).
(** lib.rs:592-607 [generate]; [value] is the random token *)
Definition nm_generate (value : str) (now : N) (m : nmgr) : nmgr :=
  let m1 := if nm_max m <=? llen (nm_nonces m) then
              let m' := nm_cleanup now m in
              if nm_max m <=? llen (nm_nonces m') then remove_oldest (nm_max m / 10) m' else m'
            else m in
  set_nonces m1 (insert str_eqb value (nonce_new (nm_ttl m) now) (nm_nonces m1)).

Section Digest.
  (** the hash function: bytes to lower-case hex text *)
  Variable H : hash_fn -> list N -> str.

  (** lib.rs:491-498: what identifies a request for retransmission detection *)
  Definition request_hash (rq : areq) : str :=
    H Sha256 (as_bytes (method_str (aq_method rq)) ++ [58] ++ as_bytes (aq_uri rq) ++ [58] ++ aq_body rq).

  (** lib.rs:479-530 [validate_nc_with_request] *)
  Definition validate_nc (age now nc : N) (rq : areq) (n : nonce) : nonce * bool :=
    if (0 <? nn_last_nc n) && (age <? now - nn_used n) then (n, false)
    else
      let h := request_hash rq in
      if nn_last_nc n <? nc then (mkNonce (nn_created n) (nn_ttl n) nc (Some h) now, true)
      else if nc =? nn_last_nc n then
        match nn_hash n with
        | Some h0 => if str_eqb h0 h
                     then (mkNonce (nn_created n) (nn_ttl n) (nn_last_nc n) (nn_hash n) now, true)
                     else (n, false)
        | None => (mkNonce (nn_created n) (nn_ttl n) (nn_last_nc n) (Some h) now, true)
        end
      else (n, false).

  (** lib.rs:611-628 [verify_with_nc] *)
  Definition verify_with_nc (value : str) (nc now : N) (rq : areq) (m : nmgr) : nmgr * bool :=
    match lookup str_eqb value (nm_nonces m) with
    | None => (m, false)
    | Some n =>
        if negb (nonce_valid now n) then (m, false)
        else let '(n', ok) := validate_nc (nm_age m) now nc rq n in
             (set_nonces m (insert str_eqb value n' (nm_nonces m)), ok)
    end.
  (** lib.rs:674-681 [is_nc_jump_reasonable]; [saturating_add] on u32 *)
  Definition jump_ok (value : str) (nc : N) (m : nmgr) : bool :=
    match lookup str_eqb value (nm_nonces m) with
    | Some n => nc <=? N.min (nn_last_nc n + 1000) u32_max
    | None => true
    end.

  (** ** The authenticator *)
  (** lib.rs:816-825 [DigestAuthenticator]; the credential store is a function
      from user and realm to the password *)
  Record auth := mkAuth { au_realm : str; au_alg : algorithm; au_qop : qop;
                          au_store : str -> str -> option str; au_nonces : nmgr;
                          au_proxy : bool; au_opaque : str;
                          au_limit : option (rl_config * limiter) }.
  Definition with_nonces (a : auth) m :=
    mkAuth (au_realm a) (au_alg a) (au_qop a) (au_store a) m (au_proxy a) (au_opaque a) (au_limit a).
  Definition with_limit (a : auth) l :=
    mkAuth (au_realm a) (au_alg a) (au_qop a) (au_store a) (au_nonces a) (au_proxy a) (au_opaque a) l.

  (** lib.rs:425-433 [validate_param] *)
  Definition vparam (mx : N) (v : str) : bool :=
    (blen v <=? mx) && negb (mem 0 v || mem 10 v || mem 13 v).

  (** lib.rs:786-805 [extract_via_host] *)
  Definition via_host (h : str) : option str :=
    if (blen h =? 0) || (256 <? blen h) then None
    else if starts_with (lit "[") h
    then match split_once 93 (skipn 1 h) with
         | Some (x, _) => if blen x =? 0 then None else Some x
         | None => None
         end
    else if llen (filter (N.eqb 58) h) =? 1
    then match split_once 58 h with Some (x, _) => Some x | None => None end
    else Some h.
  Fixpoint find_received (ps : list str) : option str :=
    match ps with
    | [] => None
    | p :: r => match strip_prefix (lit "received=") p with Some v => Some v | None => find_received r end
    end.
  (** lib.rs:749-784 [extract_rate_limit_key] *)
  Definition rate_key (hs : headers) : option str :=
    match hget (lit "Via") hs with
    | None => None
    | Some via =>
        match split_ws via with
        | _ :: hp :: _ =>
            if (blen hp =? 0) || (256 <? blen hp) then None
            else let '(host, params) := match split_once 59 hp with Some p => p | None => (hp, []) end in
                 match (match params with [] => None | _ => find_received (split_on 59 params) end) with
                 | Some v => via_host v
                 | None => via_host host
                 end
        | _ => None
        end
    end.

  (** [u32::from_str_radix(_, 16)] *)
  Definition hex_val (c : N) : option N :=
    if is_digit c then Some (c - 48)
    else if in_range 97 102 c then Some (c - 87)
    else if in_range 65 70 c then Some (c - 55) else None.
  Fixpoint hex_value (acc : N) (s : str) : option N :=
    match s with
    | [] => Some acc
    | c :: r => match hex_val c with Some d => hex_value (acc * 16 + d) r | None => None end
    end.
  Definition parse_hex_u32 (s : str) : option N :=
    let body := match s with c :: r => if c =? 43 then r else s | [] => s end in
    match body with
    | [] => None
    | _ => match hex_value 0 body with Some v => if v <=? u32_max then Some v else None | None => None end
    end.

  (** lib.rs:807-814 [DigestParams] ([nc] and [cnonce] are always present in
      the result; the realm equals the authenticator's) *)
  Record dparams := mkDp { dp_user : str; dp_nonce : str; dp_uri : str; dp_response : str;
                           dp_nc : str; dp_cnonce : str; dp_qop : qop }.
  (** outcome of [prepare_digest]: [Err], [Ok None] or [Ok (Some params)] *)
  Inductive prep := PErr | PNone | PSome (p : dparams).

  (** lib.rs:891-1004 what [prepare_digest] checks before it touches the
      nonces: the parsed parameters and the nonce count *)
  Definition opt_ok (mx : N) (v : option str) : bool :=
    match v with Some s => vparam mx s | None => true end.
  Definition auth_header_name (a : auth) : str :=
    if au_proxy a then lit "Proxy-Authorization" else lit "Authorization".
  Definition pre_nonce (a : auth) (rq : areq) (hs : headers) : prep + (dparams * N) :=
    match hget (auth_header_name a) hs with
    | None => inl PNone
    | Some v =>
    match parse_authorization v with
    | None => inl PNone
    | Some ah =>
    if negb (eq_ic (ah_scheme ah) (lit "Digest")) then inl PNone
    else
    match param (lit "username") ah, param (lit "realm") ah, param (lit "nonce") ah,
          param (lit "uri") ah, param (lit "response") ah with
    | Some user, Some realm, Some nnc, Some uri, Some resp =>
        if negb (vparam 256 user && vparam 256 realm && vparam 128 nnc && vparam 2048 uri && vparam 512 resp)
        then inl PErr
        else
        match (match param (lit "algorithm") ah with Some s => alg_parse s | None => Some (au_alg a) end) with
        | None => inl PNone
        | Some alg =>
        if negb (alg_eqb alg (au_alg a)) then inl PNone
        else
        let nc := param (lit "nc") ah in
        let cnonce := param (lit "cnonce") ah in
        let q := match param (lit "qop") ah with Some s => qop_parse s | None => None end in
        let opaque := param (lit "opaque") ah in
        if negb (opt_ok 8 nc && opt_ok 256 cnonce && opt_ok 256 opaque) then inl PErr
        else if negb (str_eqb realm (au_realm a)) then inl PNone
        else if negb (str_eqb uri (aq_uri rq)) then inl PNone
        else if negb (match opaque with Some o => str_eqb o (au_opaque a) | None => false end) then inl PNone
        else
        match q with
        | None => inl PNone
        | Some q0 =>
        if negb (qop_eqb q0 (au_qop a)) then inl PNone
        else
        match nc, cnonce with
        | Some nc, Some cnonce =>
            match parse_hex_u32 nc with
            | None => inl PErr
            | Some n =>
                if 1000000 <? n then inl PNone
                else inr (mkDp user nnc uri resp nc cnonce q0, n)
            end
        | _, _ => inl PNone
        end
        end
        end
    | _, _, _, _, _ => inl PErr
    end
    end
    end.

  (** lib.rs:872-889: body size and rate limiter; [false] means refused *)
  Definition admit (a : auth) (now : N) (rq : areq) (hs : headers) : auth * bool :=
    if 10 * 1024 * 1024 <? llen (aq_body rq) then (a, false)
    else match au_limit a, rate_key hs with
    | Some (c, l), Some k => let '(l', ok) := check c now k l in (with_limit a (Some (c, l')), ok)
    | _, _ => (a, true)
    end.

  (** lib.rs:872-1035 [prepare_digest] *)
  Definition prepare (a : auth) (now : N) (rq : areq) (hs : headers) : auth * prep :=
    let '(a1, ok) := admit a now rq hs in
    if negb ok then (a1, PErr)
    else match pre_nonce a1 rq hs with
    | inl p => (a1, p)
    | inr (dp, nc) =>
        if negb (jump_ok (dp_nonce dp) nc (au_nonces a1)) then (a1, PNone)
        else let '(m, good) := verify_with_nc (dp_nonce dp) nc now rq (au_nonces a1) in
             (with_nonces a1 m, if good then PSome dp else PNone)
    end.

  (** ** Digest computation *)
  Definition h_str (al : algorithm) (s : str) : str := H (al_hash al) (as_bytes s).
  Definition colon := lit ":".
  (** lib.rs:1215-1220 [compute_ha1] *)
  Definition ha1 (a : auth) (user pass : str) : str :=
    h_str (au_alg a) (user ++ colon ++ au_realm a ++ colon ++ pass).
  (** lib.rs:1229-1236 [apply_sess] (the cnonce is always present) *)
  Definition apply_sess (a : auth) (base nnc cnonce : str) : str :=
    if negb (al_sess (au_alg a)) then base
    else h_str (au_alg a) (base ++ colon ++ nnc ++ colon ++ cnonce).
  (** lib.rs:1238-1247 [compute_ha2] *)
  Definition ha2 (a : auth) (mt : method) (uri : str) (body : list N) : str :=
    match au_qop a with
    | QAuth => h_str (au_alg a) (method_str mt ++ colon ++ uri)
    | QAuthInt => h_str (au_alg a) (method_str mt ++ colon ++ uri ++ colon ++ H (al_hash (au_alg a)) body)
    end.
  (** lib.rs:1271-1302 [compute_response] (qop, nc and cnonce are present) *)
  Definition compute_response (a : auth) (user pass : str) (mt : method) (uri nnc nc cnonce : str)
    (q : qop) (body : list N) : str :=
    h_str (au_alg a)
      (apply_sess a (ha1 a user pass) nnc cnonce ++ colon ++ nnc ++ colon ++ nc ++ colon ++ cnonce
       ++ colon ++ qop_str q ++ colon ++ ha2 a mt uri body).

  (** lib.rs:1342-1371 [verify]: [None] is an [Err] *)
  Definition verify (a : auth) (now : N) (rq : areq) (hs : headers) : auth * option bool :=
    let '(a1, p) := prepare a now rq hs in
    match p with
    | PErr => (a1, None)
    | PNone => (a1, Some false)
    | PSome dp =>
        match au_store a1 (dp_user dp) (au_realm a1) with
        | None => (a1, None)
        | Some pass =>
            (a1, Some (str_eqb (compute_response a1 (dp_user dp) pass (aq_method rq) (dp_uri dp)
                                  (dp_nonce dp) (dp_nc dp) (dp_cnonce dp) (dp_qop dp) (aq_body rq))
                               (dp_response dp)))
        end
    end.

  (** ** Challenge *)
  (** lib.rs:1176-1213 [build_challenge_with_stale]: the header value; [tok] is
      the new nonce *)
  Definition challenge_value (a : auth) (tok : str) (stale : bool) : str :=
    lit "Digest realm=""" ++ au_realm a ++ lit """, nonce=""" ++ tok ++ lit """, algorithm="
    ++ alg_str (au_alg a) ++ lit ", qop=""" ++ qop_str (au_qop a) ++ lit """, opaque=""" ++ au_opaque a
    ++ lit """" ++ (if stale then lit ", stale=true" else []).
  Definition challenge (a : auth) (tok : str) (now : N) (stale : bool) : auth * str :=
    (with_nonces a (nm_generate tok now (au_nonces a)), challenge_value a tok stale).

  (** ** Authentication-Info *)
  (** lib.rs:1455-1461 [AuthInfo] *)
  Record auth_info := mkInfo { ai_qop : option qop; ai_rspauth : str; ai_cnonce : option str;
                               ai_nc : option str; ai_next : option str }.
  (** lib.rs:1473-1495 [to_header_value] *)
  Definition info_value (i : auth_info) : str :=
    (match ai_qop i with Some q => lit "qop=" ++ qop_str q ++ lit ", " | None => [] end)
    ++ lit "rspauth=""" ++ ai_rspauth i ++ lit """"
    ++ (match ai_cnonce i with Some c => lit ", cnonce=""" ++ c ++ lit """" | None => [] end)
    ++ (match ai_nc i with Some c => lit ", nc=" ++ c | None => [] end)
    ++ (match ai_next i with Some c => lit ", nextnonce=""" ++ c ++ lit """" | None => [] end).
  (** lib.rs:1539-1546 [strip_quotes] *)
  Definition strip_quotes (s : str) : str :=
    let s := trim s in
    if (2 <=? blen s) && starts_with (lit """") s && ends_with (lit """") s
    then rev (skipn 1 (rev (skipn 1 s))) else s.
  (** lib.rs:1550-1587 [split_auth_info_params] *)
  Definition split_auth_info_params (s : str) : list str :=
    nonblank_trimmed (fst (scan_commas false false [] s)).
  (** lib.rs:1503-1535 [parse]: later values win *)
  Definition info_param (i : option qop * option str * option str * option str * option str) (raw : str) :=
    match split_once 61 raw with
    | None => i
    | Some (k, v) =>
        let '(q, rs, cn, nc, nx) := i in
        let v := strip_quotes (trim v) in
        let k := lower (trim k) in
        if str_eqb k (lit "qop") then (qop_parse v, rs, cn, nc, nx)
        else if str_eqb k (lit "rspauth") then (q, Some v, cn, nc, nx)
        else if str_eqb k (lit "cnonce") then (q, rs, Some v, nc, nx)
        else if str_eqb k (lit "nc") then (q, rs, cn, Some v, nx)
        else if str_eqb k (lit "nextnonce") then (q, rs, cn, nc, Some v)
        else i
    end.
  Definition info_parse (s : str) : option auth_info :=
    let '(q, rs, cn, nc, nx) := fold_left info_param (split_auth_info_params s) (None, None, None, None, None) in
    match rs with Some r => Some (mkInfo q r cn nc nx) | None => None end.

  (** lib.rs:1664-1702 [compute_rspauth] *)
  Definition rspauth (a : auth) (user pass uri nnc nc cnonce : str) (q : qop) (body : list N) : str :=
    let h2 := match q with
              | QAuth => h_str (au_alg a) (colon ++ uri)
              | QAuthInt => h_str (au_alg a) (colon ++ uri ++ colon ++ H (al_hash (au_alg a)) body)
              end in
    h_str (au_alg a)
      (apply_sess a (ha1 a user pass) nnc cnonce ++ colon ++ nnc ++ colon ++ nc ++ colon ++ cnonce
       ++ colon ++ qop_str q ++ colon ++ h2).
  (** lib.rs:1609-1655 [build_auth_info]; outer [None] is an [Err] *)
  Definition build_auth_info (a : auth) (now : N) (rq : areq) (body : list N) (next : option str)
    : auth * option (option auth_info) :=
    let '(a1, p) := prepare a now rq (aq_headers rq) in
    match p with
    | PErr => (a1, None)
    | PNone => (a1, Some None)
    | PSome dp =>
        match au_store a1 (dp_user dp) (au_realm a1) with
        | None => (a1, None)
        | Some pass =>
            (a1, Some (Some (mkInfo (Some (dp_qop dp))
                    (rspauth a1 (dp_user dp) pass (dp_uri dp) (dp_nonce dp) (dp_nc dp) (dp_cnonce dp) (dp_qop dp) body)
                    (Some (dp_cnonce dp)) (Some (dp_nc dp)) next)))
        end
    end.

  (** ** Client *)
  (** lib.rs:1713-1720 [DigestClient] *)
  Record client := mkClient { cl_user : str; cl_pass : str; cl_nc : N }.
  (** [format!("{:08x}", n)] for a u32 *)
  Definition hex_digit (d : N) : N := if d <? 10 then 48 + d else 87 + d.
  Definition hex8 (n : N) : str :=
    map (fun i => hex_digit (n / 16 ^ i mod 16)) [7; 6; 5; 4; 3; 2; 1; 0].
  (** lib.rs:1774-1849 [generate_authorization]; [cnonce] is the random text *)
  Definition client_ha1 (c : client) (al : algorithm) (realm nnc cnonce : str) : str :=
    let base := h_str al (cl_user c ++ colon ++ realm ++ colon ++ cl_pass c) in
    if al_sess al then h_str al (base ++ colon ++ nnc ++ colon ++ cnonce) else base.
  Definition generate (c : client) (mt : method) (uri realm nnc : str) (al : algorithm)
    (q : option qop) (opaque : option str) (body : list N) (cnonce : str) : client * str :=
    let nc := N.min (cl_nc c + 1) u32_max in
    let h1 := client_ha1 c al realm nnc cnonce in
    let h2 := match q with
              | Some QAuthInt => h_str al (method_str mt ++ colon ++ uri ++ colon ++ H (al_hash al) body)
              | _ => h_str al (method_str mt ++ colon ++ uri)
              end in
    let resp := match q with
                | Some q0 => h_str al (h1 ++ colon ++ nnc ++ colon ++ hex8 nc ++ colon ++ cnonce ++ colon
                                       ++ qop_str q0 ++ colon ++ h2)
                | None => h_str al (h1 ++ colon ++ nnc ++ colon ++ h2)
                end in
    (mkClient (cl_user c) (cl_pass c) nc,
     lit "Digest username=""" ++ cl_user c ++ lit """, realm=""" ++ realm ++ lit """, nonce=""" ++ nnc
     ++ lit """, uri=""" ++ uri ++ lit """, response=""" ++ resp ++ lit """, algorithm=" ++ alg_str al
     ++ (match q with
         | Some q0 => lit ", qop=" ++ qop_str q0 ++ lit ", nc=" ++ hex8 nc ++ lit ", cnonce=""" ++ cnonce ++ lit """"
         | None => []
         end)
     ++ (match opaque with Some o => lit ", opaque=""" ++ o ++ lit """" | None => [] end)).
  (** lib.rs:1881-1937 [verify_auth_info]: [Ok nextnonce] or [Err] *)
  Definition verify_auth_info (c : client) (i : auth_info) (realm uri nnc : str) (al : algorithm)
    (body : list N) : option (option str) :=
    match ai_qop i, ai_cnonce i, ai_nc i with
    | Some q, Some cnonce, Some nc =>
        let h2 := match q with
                  | QAuth => h_str al (colon ++ uri)
                  | QAuthInt => h_str al (colon ++ uri ++ colon ++ H (al_hash al) body)
                  end in
        let expected := h_str al (client_ha1 c al realm nnc cnonce ++ colon ++ nnc ++ colon ++ nc
                                  ++ colon ++ cnonce ++ colon ++ qop_str q ++ colon ++ h2) in
        if str_eqb expected (ai_rspauth i) then Some (ai_next i) else None
    | _, _, _ => None
    end.

  (** ** Histories *)
  (** what happens to an authenticator, with the time of each event *)
  Inductive auth_op :=
  | AChallenge (tok : str) (stale : bool)
  | AVerify (rq : areq) (hs : headers)
  | AInfo (rq : areq) (body : list N) (next : option str)
  | ACleanup.
  Definition auth_step (a : auth) (x : N * auth_op) : auth :=
    let '(now, o) := x in
    match o with
    | AChallenge tok stale => fst (challenge a tok now stale)
    | AVerify rq hs => fst (verify a now rq hs)
    | AInfo rq body next => fst (build_auth_info a now rq body next)
    | ACleanup => with_nonces a (nm_cleanup now (au_nonces a))
    end.
End Digest.
