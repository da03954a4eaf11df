(** Model of the registrar (crates/sip-registrar/src/lib.rs): addresses of
    record, the in-memory location store and REGISTER handling. *)
From Coq Require Import NArith Bool String List.
Import ListNotations.
From Verif Require Import Base Headers Method Text Uri Msg Auth AnyUri.
Open Scope N_scope.
Open Scope list_scope.

(** ** Addresses of record *)
(** lib.rs:334-356 [normalize_sip_aor] *)
Definition aor_user (u : sip_uri) : option str :=
  match u_user u with
  | None => None
  | Some n => match rsplit_once 64 n with
              | Some (local, domain) => if eq_ic domain (u_host u) then Some local else Some n
              | None => Some n
              end
  end.
Definition sip_aor (u : sip_uri) : str :=
  let scheme := if u_sips u then lit "sips" else lit "sip" in
  let hp := lower (u_host u) ++ match u_port u with Some p => lit ":" ++ print_N p | None => [] end in
  match aor_user u with
  | Some (c :: r) => scheme ++ lit ":" ++ (c :: r) ++ lit "@" ++ hp
  | _ => scheme ++ lit ":" ++ hp
  end.
(** [sort_by] on the keys: stable insertion sort *)
Fixpoint ins_key (x : str * option str) (l : list (str * option str)) : list (str * option str) :=
  match l with
  | [] => [x]
  | y :: r => if str_ltb (fst y) (fst x) then y :: ins_key x r else x :: l
  end.
Definition sort_keys (l : list (str * option str)) : list (str * option str) := fold_right ins_key [] l.
(** lib.rs:366-443 [normalize_tel_aor] *)
Definition tel_context_norm (c : str) : str := if starts_plus c then strip_seps c else lower c.
Definition tel_aor_params (t : tel_uri) : list (str * option str) :=
  sort_keys (map (fun kv => (lower (fst kv), snd kv))
               (filter (fun kv => negb (is_context_key (fst kv))) (t_params t))).
Definition tel_aor (t : tel_uri) : str :=
  lit "tel:" ++ strip_seps (t_number t)
  ++ (if t_global t then []
      else match t_context t with Some c => lit ";phone-context=" ++ tel_context_norm c | None => [] end)
  ++ flat_map print_param (tel_aor_params t).
(** lib.rs:326-332 [normalize_aor] *)
Definition normalize_aor (u : any_uri) : option str :=
  match u with ASip u => Some (sip_aor u) | ATel t => Some (tel_aor t) | AAbs _ => None end.
(** lib.rs:314-324 [aor_identity] *)
Definition aor_identity (aor : str) : option str :=
  match split_once 58 aor with
  | None => None
  | Some (scheme, rest) =>
      if eq_ic scheme (lit "tel")
      then match hd [] (split_on 59 rest) with [] => None | n => Some n end
      else match split_once 64 rest with Some (u, _) => Some u | None => None end
  end.

(** ** Bindings *)
(** lib.rs:45-53 *)
Definition MAX_AOR_LENGTH : N := 512.
Definition MAX_CONTACT_LENGTH : N := 512.
Definition MAX_RCALL_ID_LENGTH : N := 256.
Definition MAX_USER_AGENT_LENGTH : N := 256.
Definition MAX_BINDINGS_PER_AOR : N := 20.
Definition MAX_TOTAL_BINDINGS : N := 100000.
Definition MAX_RCSEQ : N := 2147483647.
Definition MIN_EXPIRES_SECS : N := 60.
Definition MAX_EXPIRES_SECS : N := 86400.
(** nanoseconds in a second; instants are counted in nanoseconds *)
Definition NANOS : N := 1000000000.

(** the fields of [Binding] (lib.rs:466-512) and [StoredBinding]
    (lib.rs:803-815) that the store copies unchanged.  The q value is kept as
    text (see [q_ok] below), the Path header as the text it prints as. *)
Record binfo := mkInfoB { bi_call_id : str; bi_cseq : N; bi_q : str; bi_ua : option str;
                          bi_path : option str; bi_flow : option str;
                          bi_instance : option str; bi_reg : option N }.
Record binding := mkBinding { b_aor : str; b_contact : str; b_expires : N; b_info : binfo }.
Record stored := mkStored { s_contact : str; s_until : N; s_info : binfo }.
(** lib.rs:799-801 [MemoryLocationStore]: address of record -> bindings.  The
    order of the map is not observable. *)
Definition store := list (str * list stored).

(** lib.rs:140-230: length and control character tests *)
Definition short_clean (mx : N) (s : str) : bool := (blen s <=? mx) && negb (existsb is_control s).
(** lib.rs:516-540 [Binding::new]; expiry in nanoseconds *)
Definition binding_new (aor contact : str) (expires : N) (i : binfo) : option binding :=
  if short_clean MAX_AOR_LENGTH aor && short_clean MAX_CONTACT_LENGTH contact
     && (MIN_EXPIRES_SECS <=? expires / NANOS) && (expires / NANOS <=? MAX_EXPIRES_SECS)
     (* lib.rs:543-573 [with_call_id], [with_cseq], [with_user_agent]; a q value
        that the caller parsed is in range *)
     && short_clean MAX_RCALL_ID_LENGTH (bi_call_id i) && (bi_cseq i <=? MAX_RCSEQ)
     && match bi_ua i with Some ua => short_clean MAX_USER_AGENT_LENGTH ua | None => true end
  then Some (mkBinding aor contact expires i) else None.

(** ** The location store *)
Definition total (st : store) : N := fold_right (fun e n => llen (snd e) + n) 0 st.
Definition live (now : N) (b : stored) : bool := now <? s_until b.
Definition other (c : str) (b : stored) : bool := negb (str_eqb c (s_contact b)).
(** [DashMap::get_mut] followed by [retain] on the vector *)
Definition retain_at (aor : str) (f : stored -> bool) (st : store) : store :=
  map (fun e => if str_eqb aor (fst e) then (fst e, filter f (snd e)) else e) st.
Definition entry (aor : str) (st : store) : list stored :=
  match lookup str_eqb aor st with Some l => l | None => [] end.
(** lib.rs:866-903: the part of [upsert] after the count, done while the entry
    is held; [false] is an [Err] *)
Definition upsert_entry (now : N) (b : binding) (st : store) : store * bool :=
  let l := entry (b_aor b) st in
  let others := filter (other (b_contact b)) l in
  (* the entry exists if the limit is reached, so [or_default] adds nothing *)
  if MAX_BINDINGS_PER_AOR <=? llen others then (st, false)
  else (insert str_eqb (b_aor b)
          (others ++ [mkStored (b_contact b) (now + b_expires b) (b_info b)]) st, true).
(** lib.rs:858-903 [upsert].  The count of all bindings and the change of the
    entry are separate steps in the code; here one call runs at a time. *)
Definition upsert (now : N) (b : binding) (st : store) : store * bool :=
  if MAX_TOTAL_BINDINGS <=? total st then (st, false) else upsert_entry now b st.
(** lib.rs:905-910 [remove] *)
Definition remove_binding (aor contact : str) (st : store) : store := retain_at aor (other contact) st.
(** lib.rs:912-915 [remove_all] *)
Definition remove_all (aor : str) (st : store) : store := remove_key str_eqb aor st.
(** lib.rs:829-833 [purge_expired] *)
Definition purge (now : N) (aor : str) (st : store) : store := retain_at aor (live now) st.
(** lib.rs:917-951 [lookup]: the new store and the bindings returned *)
Definition to_binding (now : N) (aor : str) (b : stored) : binding :=
  mkBinding aor (s_contact b) (s_until b - now) (s_info b).
Definition lookup_aor (now : N) (aor : str) (st : store) : store * list binding :=
  let st := purge now aor st in
  (st, map (to_binding now aor) (filter (live now) (entry aor st))).
(** lib.rs:953-967 [cleanup_expired] *)
Definition nonempty {A} (l : list A) : bool := match l with [] => false | _ => true end.
Definition cleanup (now : N) (st : store) : store * N :=
  let st' := map (fun e => (fst e, filter (live now) (snd e))) st in
  (filter (fun e => nonempty (snd e)) st', total st - total st').

(** the calls a program can make on the store *)
Inductive sop :=
| SUpsert (b : binding) | SRemove (aor contact : str) | SRemoveAll (aor : str)
| SLookup (aor : str) | SCleanup.
Definition sop_step (st : store) (x : N * sop) : store :=
  let '(now, o) := x in
  match o with
  | SUpsert b => fst (upsert now b st)
  | SRemove a c => remove_binding a c st
  | SRemoveAll a => remove_all a st
  | SLookup a => fst (lookup_aor now a st)
  | SCleanup => fst (cleanup now st)
  end.
Definition sop_run (st : store) (l : list (N * sop)) : store := fold_left sop_step l st.

(** ** REGISTER handling *)
(** lib.rs:2232-2270 [split_quoted_commas]: no limit, unclosed quotes allowed *)
Definition split_commas (s : str) : list str := nonblank_trimmed (fst (scan_commas false false [] s)).
(** lib.rs:2187-2199 [contact_headers] *)
Definition contact_headers (hs : headers) : list str :=
  flat_map split_commas (hget_all (lit "Contact") hs).
(** lib.rs:1232-1263 [extract_contact_uri] *)
Definition contact_uri (c : str) : option str :=
  let t := trim c in
  let r := match split_once 60 t with
           | Some (_, after) => match split_once 62 after with
                                | Some (inside, _) => Some (trim inside) | None => None end
           | None => match split_once 59 t with
                     | Some (u, _) => Some (trim u) | None => Some t end
           end in
  match r with Some [] => None | _ => r end.
(** lib.rs:1265-1320 [contact_param_value]: [None] is an [Err] *)
Fixpoint find_param (name : str) (ps : list str) : option (option str) :=
  match ps with
  | [] => Some None
  | p :: r =>
      match trim p with
      | [] => find_param name r
      | p => match split_once 61 p with
             | Some (k, v) =>
                 if eq_ic (trim k) name
                 then match trim v with [] => None | v => Some (Some v) end
                 else find_param name r
             | None => if eq_ic p name then None else find_param name r
             end
      end
  end.
Definition contact_param (c name : str) : option (option str) :=
  let t := trim c in
  if str_eqb t (lit "*") then Some None
  else
  let section := match split_once 60 t with
                 | Some (_, after) => match split_once 62 after with
                                      | Some (_, rest) => Some (Some (trim rest)) | None => None end
                 | None => match split_once 59 t with
                           | Some (_, ps) => Some (Some (59 :: ps)) | None => Some None end
                 end in
  match section with
  | None => None
  | Some None => Some None
  | Some (Some ps) =>
      let ps := trim ps in
      match match strip_prefix (lit ";") ps with Some r => r | None => ps end with
      | [] => Some None
      | ps => find_param name (split_on 59 ps)
      end
  end.

(** lib.rs:977-1008 the registrar's settings (the rest of the configuration
    only adds headers to the 200 response); seconds *)
Record rconfig := mkRc { rc_default : N; rc_min : N; rc_max : N }.

(** ExpiresError (lib.rs:1424-1429) *)
Inductive expires_answer := ExpOk (secs : N) | ExpBrief | ExpLong | ExpInvalid.
(** lib.rs:1185-1219 [parse_expires] *)
Definition parse_expires (c : rconfig) (hs : headers) (contact : str) : expires_answer :=
  match contact_param contact (lit "expires") with
  | None => ExpInvalid
  | Some cp =>
      match match cp with Some v => match parse_uint u64_max v with Some n => Some (Some n) | None => None end
                        | None => Some None end with
      | None => ExpInvalid
      | Some ce =>
          match match hget (lit "Expires") hs with
                | Some v => match parse_uint u64_max v with Some n => Some (Some n) | None => None end
                | None => Some None end with
          | None => ExpInvalid
          | Some he =>
              let secs := match ce with Some n => n | None =>
                          match he with Some n => n | None => rc_default c end end in
              if secs =? 0 then ExpOk 0
              else if secs <? rc_min c then ExpBrief
              else if rc_max c <? secs then ExpLong
              else ExpOk secs
          end
      end
  end.

(** what handling a REGISTER gives back: a response (status code and headers),
    or an [Err] to the caller *)
Inductive answer := Answered (code : N) (hs : headers) | Failed.
(** the outcome of the configured authenticator: none configured, accepted,
    rejected (with the challenge response), see lib.rs:1846-1875 *)
Inductive authn := NoAuth | AuthOk | AuthRejected (challenge : answer).

(** [header()?] chains: stop at the first header that cannot be added *)
Fixpoint push_all (l : list (str * str)) (hs : headers) : option headers :=
  match l with
  | [] => Some hs
  | (n, v) :: r => match hpush hs n v with Ok hs' => push_all r hs' | Err _ => None end
  end.
(** lib.rs:2213-2230 [ensure_to_tag]; [tag] is the random tag *)
Definition ensure_to_tag (tag to : str) : str :=
  match find_sub (lit ";tag=") to with Some _ => to | None => to ++ lit ";tag=" ++ tag end.
Definition opt_header (name : str) (v : option str) : list (str * str) :=
  match v with Some v => [(name, v)] | None => [] end.
(** lib.rs:1388-1411 and 2119-2139: the headers copied from the request *)
Definition copied (tag : str) (hs : headers) : list (str * str) :=
  opt_header (lit "Via") (hget (lit "Via") hs)
  ++ opt_header (lit "From") (hget (lit "From") hs)
  ++ opt_header (lit "To") (match hget (lit "To") hs with Some t => Some (ensure_to_tag tag t) | None => None end)
  ++ opt_header (lit "Call-ID") (hget (lit "Call-ID") hs)
  ++ opt_header (lit "CSeq") (hget (lit "CSeq") hs).
Definition respond (code : N) (l : list (str * str)) : answer :=
  match push_all l [] with Some hs => Answered code hs | None => Failed end.
(** lib.rs:1386-1420 [build_error_response]; the reason phrases are dropped *)
Definition error (tag : str) (code : N) (hs : headers) : answer :=
  respond code (copied tag hs ++ [(lit "Content-Length", lit "0")]).
(** lib.rs:1422-1429 [build_interval_too_brief] *)
Definition too_brief (tag : str) (c : rconfig) (hs : headers) : answer :=
  respond 423 (copied tag hs ++ [(lit "Content-Length", lit "0"); (lit "Min-Expires", print_N (rc_min c))]).

(** lib.rs:1343-1384 [parse_cseq_number] *)
Definition register_cseq (hs : headers) : option N :=
  match header_of hs (lit "CSeq") with
  | None => None
  | Some v =>
      match split_ws v with
      | n :: m :: _ => match parse_uint u32_max n with
                       | Some n => if eq_ic m (lit "REGISTER") then Some n else None
                       | None => None end
      | _ => None
      end
  end.

Section Register.
  (** Unicode NFC, used by [usernames_equal] (lib.rs:296-301) *)
  Variable nfc : str -> str.
  (** whether a text parses as an f32 between 0 and 1, and how that number is
      displayed (lib.rs:1221-1230 [parse_q_value], 2201-2211) *)
  Variable q_ok : str -> bool.
  Variable q_show : str -> str.
  (** lib.rs:1133-1140 [extract_path]: [None] when a Path header is present but
      malformed, otherwise the path of the request as text *)
  Variable path_of : headers -> option (option str).

  (** lib.rs:296-301 [usernames_equal] *)
  Definition usernames_equal (a b : str) : bool := eq_ic (nfc a) (nfc b).
  (** crates/sip-auth/src/lib.rs:716-727 [extract_auth_username] *)
  Definition auth_username (hs : headers) : option str :=
    match (match hget (lit "Authorization") hs with
           | Some v => Some v | None => hget (lit "Proxy-Authorization") hs end) with
    | None => None
    | Some v => match parse_authorization v with
                | Some a => if eq_ic (ah_scheme a) (lit "Digest") then param (lit "username") a else None
                | None => None
                end
    end.

  (** what is read from one Contact value: lib.rs:1991-2068, in the order of
      the code, the first failure being the answer *)
  Record contact_in := mkCi { ci_uri : str; ci_secs : N; ci_q : str; ci_instance : option str; ci_reg : option N }.
  Inductive read_answer := ReadOk (c : contact_in) | Read400 | Read423.
  Definition read_contact (rc : rconfig) (hs : headers) (c : str) : read_answer :=
    match contact_uri c with
    | None => Read400
    | Some u =>
    match parse_any u with
    | Some (ASip _) =>
        match parse_expires rc hs c with
        | ExpBrief => Read423
        | ExpLong | ExpInvalid => Read400
        | ExpOk secs =>
            match contact_param c (lit "q") with
            | None => Read400
            | Some q =>
                if match q with Some q => negb (q_ok q) | None => false end then Read400
                else
                let q := match q with Some q => q | None => lit "1" end in
                match contact_param c (lit "+sip.instance") with
                | None => Read400
                | Some inst =>
                match contact_param c (lit "reg-id") with
                | None => Read400
                | Some None => ReadOk (mkCi u secs q inst None)
                | Some (Some r) =>
                    match parse_uint u32_max r with
                    | None => Read400
                    | Some r => ReadOk (mkCi u secs q inst (Some r))
                    end
                end end
            end
        end
    | _ => Read400
    end end.

  (** lib.rs:2070-2078: the binding of the same contact found before the loop
      has the same Call-ID and a CSeq that is not smaller *)
  Definition out_of_order (existing : list binding) (uri call_id : str) (cseq : N) : bool :=
    match find (fun b => str_eqb uri (b_contact b)) (rev existing) with
    | Some b => str_eqb (bi_call_id (b_info b)) call_id && (cseq <=? bi_cseq (b_info b))
    | None => false
    end.
  (** how the loop over the contacts ends: done, an error response, or [Err] *)
  Inductive loop_end := LDone | LCode (code : N) | LFail.
  Record reg_ctx := mkRx { rx_aor : str; rx_call_id : str; rx_cseq : N; rx_ua : option str; rx_path : option str }.
  (** lib.rs:1990-2116: the loop over the contacts *)
  Fixpoint do_contacts (rc : rconfig) (now : N) (hs : headers) (x : reg_ctx) (existing : list binding)
      (cs : list str) (st : store) : store * loop_end :=
    match cs with
    | [] => (st, LDone)
    | c :: r =>
        match read_contact rc hs c with
        | Read400 => (st, LCode 400)
        | Read423 => (st, LCode 423)
        | ReadOk ci =>
            if out_of_order existing (ci_uri ci) (rx_call_id x) (rx_cseq x) then (st, LCode 400)
            else if ci_secs ci =? 0
            then do_contacts rc now hs x existing r (remove_binding (rx_aor x) (ci_uri ci) st)
            else
              match binding_new (rx_aor x) (ci_uri ci) (ci_secs ci * NANOS)
                      (mkInfoB (rx_call_id x) (rx_cseq x) (ci_q ci) (rx_ua x) (rx_path x) None
                               (ci_instance ci) (ci_reg ci)) with
              | None => (st, LFail)
              | Some b => let '(st', ok) := upsert now b st in
                          if ok then do_contacts rc now hs x existing r st' else (st', LFail)
              end
        end
    end.

  (** lib.rs:2201-2211 [format_contact] *)
  Definition format_contact (b : binding) : str :=
    if b_expires b / NANOS =? 0 then b_contact b ++ lit ";expires=0"
    else b_contact b ++ lit ";expires=" ++ print_N (b_expires b / NANOS) ++ lit ";q=" ++ q_show (bi_q (b_info b)).
  (** lib.rs:1150-1180 [append_extensions] without Service-Route and Supported:
      each distinct Path once *)
  Fixpoint distinct_paths (seen : list str) (bs : list binding) : list str :=
    match bs with
    | [] => []
    | b :: r => match bi_path (b_info b) with
                | Some p => if existsb (str_eqb p) seen then distinct_paths seen r
                            else p :: distinct_paths (seen ++ [p]) r
                | None => distinct_paths seen r
                end
    end.

  (** lib.rs:1872-1930: the address of record of the request and whether the
      authenticated user may change it; the status code on failure *)
  Definition register_aor (an : authn) (hs : headers) : result str N :=
    match header_of hs (lit "To") with
    | None => Err 400
    | Some to =>
        match parse_name_addr to with
        | None => Err 400
        | Some na =>
            match normalize_aor (na_uri na) with
            | None => Err 400
            | Some aor =>
                match an with
                | NoAuth => Ok aor
                | _ => match auth_username hs, aor_identity aor with
                       | Some u, Some id => if usernames_equal id u then Ok aor else Err 403
                       | _, _ => Err 403
                       end
                end
            end
        end
    end.

  (** lib.rs:1822-2183 [handle_register] ([handle_register_async] has the same
      text).  [limited]: the rate limiter refused the request.  [now] is one
      clock reading for the whole call; [tag] and [date] are the generated
      texts. *)
  Definition required : list str := [lit "Via"; lit "From"; lit "Call-ID"; lit "CSeq"].
  Definition handle_register (rc : rconfig) (now : N) (tag date : str) (limited : bool) (an : authn)
      (hs : headers) (st : store) : store * answer :=
    if negb (forallb (fun n => is_some (hget n hs)) required) then (st, error tag 400 hs)
    else if limited then (st, error tag 503 hs)
    else match an with
    | AuthRejected ch => (st, ch)
    | _ =>
    match register_aor an hs with
    | Err code => (st, error tag code hs)
    | Ok aor =>
        let call_id := match header_of hs (lit "Call-ID") with Some c => c | None => [] end in
        match register_cseq hs with
        | None => (st, error tag 400 hs)
        | Some cseq =>
            let cs := contact_headers hs in
            match cs with
            | [] => (st, error tag 400 hs)
            | _ =>
            let star := existsb (fun c => str_eqb (trim c) (lit "*")) cs in
            if star && negb (llen cs =? 1) then (st, error tag 400 hs)
            else if star then
              match header_of hs (lit "Expires") with
              | Some v => match parse_uint u64_max v with
                          | Some n =>
                              if n =? 0
                              then (remove_all aor st,
                                    respond 200 (copied tag hs ++ [(lit "Contact", lit "*"); (lit "Date", date);
                                                                   (lit "Content-Length", lit "0")]))
                              else (st, error tag 400 hs)
                          | None => (st, error tag 400 hs)
                          end
              | None => (st, error tag 400 hs)
              end
            else
            match path_of hs with
            | None => (st, error tag 400 hs)
            | Some path =>
                let '(st1, existing) := lookup_aor now aor st in
                let '(st2, e) := do_contacts rc now hs
                    (mkRx aor call_id cseq (header_of hs (lit "User-Agent")) path) existing cs st1 in
                match e with
                | LFail => (st2, Failed)
                | LCode code => (st2, if code =? 423 then too_brief tag rc hs else error tag code hs)
                | LDone =>
                    let '(st3, bs) := lookup_aor now aor st2 in
                    (st3, respond 200 (copied tag hs
                            ++ map (fun b => (lit "Contact", format_contact b)) bs
                            ++ map (fun p => (lit "Path", p)) (distinct_paths [] bs)
                            ++ [(lit "Date", date); (lit "Content-Length", lit "0")]))
                end
            end
            end
        end
    end
    end.

  (** lib.rs:1846-1875 with a [DigestAuthenticator]; [ch] is the challenge
      response.  The new state of the authenticator is left out. *)
  Definition digest_register (H : hash_fn -> list N -> str) (a : auth) (ch : answer)
      (rc : rconfig) (now : N) (tag date : str) (limited : bool) (rq : areq) (st : store) : store * answer :=
    handle_register rc now tag date limited
      (match snd (verify H a now rq (aq_headers rq)) with Some true => AuthOk | _ => AuthRejected ch end)
      (aq_headers rq) st.
End Register.
