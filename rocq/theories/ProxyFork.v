(** Model of the stateful proxy (crates/sip-proxy/src/stateful.rs): the response
    context of one proxied request, and the table of contexts. *)
From Coq Require Import NArith Bool String List.
Import ListNotations.
From Verif Require Import Base Headers Method Uri Msg.
Open Scope N_scope.
Open Scope list_scope.

(** stateful.rs:44-48 *)
Definition MAX_BRANCH_ID_LENGTH : N := 128.
Definition MAX_BRANCHES_PER_CONTEXT : N := 50.
Definition MAX_PROXY_CONTEXTS : N := 10000.

(** stateful.rs:102-113 [validate_branch_id] *)
Definition validate_branch_id (b : str) : bool :=
  (blen b <=? MAX_BRANCH_ID_LENGTH) && negb (existsb is_control b).

(** stateful.rs:230-248 [BranchState] *)
Inductive bstate := BTrying | BProceeding | BCompleted | BCancelled | BTimedOut.
(** stateful.rs:164-180 [BranchInfo]; [created_at] is never read and left out *)
Record branch := mkBranch { br_target : sip_uri; br_state : bstate; br_resp : option resp }.

(** stateful.rs:264-311 [ProxyContext]: the mutable part and the original
    request.  [cx_timers] lists the Timer C tasks that were spawned and have not
    fired ([arm_timer_c], 817-833); when they fire is left open. *)
Record ctx := mkCtx {
  cx_req : req;
  cx_branches : list (str * branch);
  cx_best : option resp;
  cx_count : N;
  cx_term : bool;
  cx_timers : list str
}.
(** stateful.rs:339-366 [with_timer_c] *)
Definition ctx_new (q : req) : ctx := mkCtx q [] None 0 false [].

Definition set_branches (c : ctx) (m : list (str * branch)) : ctx :=
  mkCtx (cx_req c) m (cx_best c) (cx_count c) (cx_term c) (cx_timers c).
Definition set_best (c : ctx) (b : option resp) : ctx :=
  mkCtx (cx_req c) (cx_branches c) b (cx_count c) (cx_term c) (cx_timers c).
Definition set_count (c : ctx) (n : N) : ctx :=
  mkCtx (cx_req c) (cx_branches c) (cx_best c) n (cx_term c) (cx_timers c).
Definition set_term (c : ctx) : ctx :=
  mkCtx (cx_req c) (cx_branches c) (cx_best c) (cx_count c) true (cx_timers c).
Definition set_timers (c : ctx) (l : list str) : ctx :=
  mkCtx (cx_req c) (cx_branches c) (cx_best c) (cx_count c) (cx_term c) l.

(** [HashMap::get_mut] followed by an update in place *)
Definition upd (b : str) (f : branch -> branch) (m : list (str * branch)) : list (str * branch) :=
  map (fun e => if str_eqb b (fst e) then (fst e, f (snd e)) else e) m.

(** stateful.rs:414-419: classes of response codes *)
Definition is_final (r : resp) : bool := 200 <=? p_code r.
Definition is_2xx (r : resp) : bool := (200 <=? p_code r) && (p_code r <? 300).
Definition is_6xx (r : resp) : bool := (600 <=? p_code r) && (p_code r <? 700).
Definition is_prov (r : resp) : bool := (100 <=? p_code r) && (p_code r <? 200).
Definition is_challenge (r : resp) : bool := (p_code r =? 401) || (p_code r =? 407).

Inductive proxy_error := TooManyBranches | TerminatedBy6xx.

(** *** The critical sections (each under one lock) *)

(** stateful.rs:374-376: the check [add_branch] makes first, under its own lock *)
Definition add_check (c : ctx) : bool := negb (cx_term c).
(** stateful.rs:378-389: the rest of [add_branch], under the [branches] lock.
    The branch comes from [BranchInfo::new], in state Trying as in
    service.rs:153-158. *)
Definition add_insert (c : ctx) (b : str) (t : sip_uri) : result ctx proxy_error :=
  if MAX_BRANCHES_PER_CONTEXT <=? llen (cx_branches c) then Err TooManyBranches
  else Ok (set_count (set_branches c (insert str_eqb b (mkBranch t BTrying None) (cx_branches c)))
                     (cx_count c + 1)).
(** stateful.rs:373-390 [add_branch] with nothing in between *)
Definition add_branch (c : ctx) (b : str) (t : sip_uri) : result ctx proxy_error :=
  if add_check c then add_insert c b t else Err TerminatedBy6xx.

(** stateful.rs:423-451: record the response on its branch *)
Definition record_response (c : ctx) (b : str) (r : resp) : option ctx :=
  match lookup str_eqb b (cx_branches c) with
  | None => None
  | Some br =>
      let st := if is_prov r then BProceeding else if is_final r then BCompleted else br_state br in
      let arm := match br_state br with BTrying => is_prov r | _ => false end in
      Some (set_timers (set_branches c (upd b (fun x => mkBranch (br_target x) st (Some r)) (cx_branches c)))
                       (if arm then cx_timers c ++ [b] else cx_timers c))
  end.
(** stateful.rs:457-462: one outstanding branch less *)
Definition count_down (c : ctx) : ctx :=
  set_count c (if 0 <? cx_count c then cx_count c - 1 else cx_count c).
(** stateful.rs:838-869 [select_best_response] *)
Definition select_best (cur : option resp) (new : resp) : bool :=
  match cur with
  | None => true
  | Some cur =>
      let cc := p_code cur / 100 in
      let nc := p_code new / 100 in
      if nc =? 6 then true
      else if cc =? 6 then false
      else if nc =? 2 then true
      else if cc =? 2 then false
      else nc <? cc
  end.
(** stateful.rs:477-484: update the best final response *)
Definition rank_response (c : ctx) (r : resp) : bool * ctx :=
  if select_best (cx_best c) r then (true, set_best c (Some r)) else (false, c).
(** stateful.rs:615-641 [cancel_other_branches] *)
Definition cancel_others (c : ctx) (winner : str) : ctx :=
  set_branches c (map (fun e =>
    if str_eqb (fst e) winner then e
    else match br_state (snd e) with
         | BCompleted | BCancelled => e
         | _ => (fst e, mkBranch (br_target (snd e)) BCancelled (br_resp (snd e)))
         end) (cx_branches c)).

(** stateful.rs:590-599: collect the values not seen before *)
Definition collect_new (seen vals : list str) : list str :=
  fold_left (fun s v => if existsb (str_eqb v) s then s else s ++ [v]) vals seen.
Definition challenges (name : str) (bs : list (str * branch)) : list str :=
  flat_map (fun e => match br_resp (snd e) with
                     | Some r => if is_challenge r then hget_all name (p_headers r) else []
                     | None => [] end) bs.
Definition push_all (name : str) (vs : list str) (hs : headers) : headers :=
  fold_left (fun hs v => or_same hs (hpush hs name v)) vs hs.
Definition WWW : str := lit "WWW-Authenticate".
Definition PRX : str := lit "Proxy-Authenticate".
Definition new_values (name : str) (bs : list (str * branch)) (best : resp) : list str :=
  let own := hget_all name (p_headers best) in
  skipn (length own) (collect_new own (challenges name bs)).

Section Order.
(** the order in which the [HashMap] of branches is iterated *)
Variable ord : list (str * branch) -> list (str * branch).

(** stateful.rs:563-609 [aggregate_auth_challenges] *)
Definition aggregate (c : ctx) (best : resp) : resp :=
  let bs := ord (cx_branches c) in
  mkResp (p_code best) (p_reason best)
    (push_all PRX (new_values PRX bs best) (push_all WWW (new_values WWW bs best) (p_headers best)))
    (p_body best).

(** what happened: a branch was added; a response was recorded on a branch; a
    response was handed over for forwarding upstream: a provisional one, a 2xx
    or 6xx at once, or the best one when all branches have completed *)
Inductive sent_kind := Prov | Now | Done.
Inductive event := Added (b : str) | Got (b : str) (r : resp) | Sent (k : sent_kind) (r : resp).

(** stateful.rs:531-555: the end of [process_response] *)
Definition finish (c : ctx) : list event :=
  if cx_count c =? 0 then
    match cx_best c with
    | Some best => [Sent Done (if is_challenge best then aggregate c best else best)]
    | None => []
    end
  else [].

(** stateful.rs:408-558 [process_response], run without interruption *)
Definition process (c : ctx) (b : str) (r : resp) : ctx * list event :=
  match record_response c b r with
  | None => (c, [])
  | Some c1 =>
      if is_final r then
        let (sel, c2) := rank_response (count_down c1) r in
        if sel && is_2xx r then (cancel_others c2 b, [Got b r; Sent Now r])
        else if sel && is_6xx r then (cancel_others (set_term c2) b, [Got b r; Sent Now r])
        else (c2, Got b r :: finish c2)
      else (c1, [Got b r; Sent Prov r])
  end.

(** stateful.rs:730-746, 785-797: the responses made up by the proxy *)
Definition echo_names : list str := [lit "Via"; lit "From"; lit "To"; lit "Call-ID"; lit "CSeq"].
Definition synthetic (q : req) (code : N) (reason : str) : resp :=
  mkResp code reason
    (fold_left (fun hs n => match hget n (q_headers q) with
                            | Some v => or_same hs (hpush hs n v) | None => hs end) echo_names []) [].
Definition timeout_408 (c : ctx) : resp := synthetic (cx_req c) 408 (lit "Request Timeout").
Definition unavailable_503 (c : ctx) : resp := synthetic (cx_req c) 503 (lit "Service Unavailable").

(** stateful.rs:710-723: does Timer C still apply to the branch? *)
Definition timer_applies (c : ctx) (b : str) : bool :=
  match lookup str_eqb b (cx_branches c) with
  | Some br => match br_state br with BProceeding => true | _ => false end
  | None => false
  end.
(** stateful.rs:771-783: does a transport error still matter for the branch? *)
Definition error_applies (c : ctx) (b : str) : bool :=
  match lookup str_eqb b (cx_branches c) with
  | Some br => match br_state br with BCompleted | BCancelled => false | _ => true end
  | None => false
  end.
(** stateful.rs:709-754 [fire_timer_c] *)
Definition fire_timer_c (c : ctx) (b : str) : ctx * list event :=
  if timer_applies c b then process c b (timeout_408 c) else (c, []).
(** stateful.rs:768-811 [report_transport_error] *)
Definition report_error (c : ctx) (b : str) : ctx * list event :=
  if error_applies c b then process c b (unavailable_503 c) else (c, []).

Fixpoint remove_one (b : str) (l : list str) : option (list str) :=
  match l with
  | [] => None
  | x :: r => if str_eqb b x then Some r
              else match remove_one b r with Some r' => Some (x :: r') | None => None end
  end.

(** the calls a program makes on a context, one after the other *)
Inductive pop := PAdd (b : str) (t : sip_uri) | PResp (b : str) (r : resp) | PError (b : str) | PTimer (b : str).
Definition pstep (c : ctx) (o : pop) : ctx * list event :=
  match o with
  | PAdd b t => match add_branch c b t with Ok c' => (c', [Added b]) | Err _ => (c, []) end
  | PResp b r => process c b r
  | PError b => report_error c b
  | PTimer b => match remove_one b (cx_timers c) with
                | Some l => fire_timer_c (set_timers c l) b
                | None => (c, []) end
  end.
Fixpoint prun (c : ctx) (ops : list pop) : ctx * list event :=
  match ops with
  | [] => (c, [])
  | o :: rest => let (c1, l1) := pstep c o in let (c2, l2) := prun c1 rest in (c2, l1 ++ l2)
  end.

(** *** Concurrent calls: every critical section is one step *)
Inductive task :=
| TAdd (b : str) (t : sip_uri)        (* add_branch, not started *)
| TInsert (b : str) (t : sip_uri)     (* the 6xx flag was read as clear *)
| TResp (b : str) (r : resp)          (* process_response, not started *)
| TCount (b : str) (r : resp)         (* final response recorded on its branch *)
| TRank (b : str) (r : resp)          (* outstanding count decremented *)
| TTerm (b : str) (r : resp)          (* a 6xx became the best response *)
| TCancel (b : str) (r : resp)        (* siblings to be cancelled, r to be forwarded *)
| TCheck                              (* outstanding count to be read *)
| TRead                               (* it was zero; best response to be read *)
| TGather (best : resp)               (* challenges to be collected *)
| TTimer (b : str)                    (* Timer C fired *)
| TError (b : str).                   (* report_transport_error, not started *)

Definition tstep (c : ctx) (t : task) : ctx * option task * list event :=
  match t with
  | TAdd b u => (c, if add_check c then Some (TInsert b u) else None, [])
  | TInsert b u => match add_insert c b u with
                   | Ok c' => (c', None, [Added b]) | Err _ => (c, None, []) end
  | TResp b r =>
      match record_response c b r with
      | None => (c, None, [])
      | Some c1 => if is_final r then (c1, Some (TCount b r), [Got b r])
                   else (c1, None, [Got b r; Sent Prov r])
      end
  | TCount b r => (count_down c, Some (TRank b r), [])
  | TRank b r =>
      let (sel, c2) := rank_response c r in
      (c2, Some (if sel && is_2xx r then TCancel b r
                 else if sel && is_6xx r then TTerm b r else TCheck), [])
  | TTerm b r => (set_term c, Some (TCancel b r), [])
  | TCancel b r => (cancel_others c b, None, [Sent Now r])
  | TCheck => (c, if cx_count c =? 0 then Some TRead else None, [])
  | TRead => match cx_best c with
             | Some best => if is_challenge best then (c, Some (TGather best), [])
                            else (c, None, [Sent Done best])
             | None => (c, None, [])
             end
  | TGather best => (c, None, [Sent Done (aggregate c best)])
  | TTimer b => (c, if timer_applies c b then Some (TResp b (timeout_408 c)) else None, [])
  | TError b => (c, if error_applies c b then Some (TResp b (unavailable_503 c)) else None, [])
  end.

Record sys := mkSys { sy_ctx : ctx; sy_tasks : list task; sy_log : list event }.
(** a caller starts a call; a spawned Timer C elapses; one call makes a step *)
Inductive label := Start (o : pop) | Elapse (b : str) | Run (i : nat).
Definition start_task (o : pop) : list task :=
  match o with PAdd b t => [TAdd b t] | PResp b r => [TResp b r] | PError b => [TError b] | PTimer _ => [] end.
Definition sstep (s : sys) (l : label) : sys :=
  match l with
  | Start o => mkSys (sy_ctx s) (sy_tasks s ++ start_task o) (sy_log s)
  | Elapse b => match remove_one b (cx_timers (sy_ctx s)) with
                | Some ts => mkSys (set_timers (sy_ctx s) ts) (sy_tasks s ++ [TTimer b]) (sy_log s)
                | None => s
                end
  | Run i =>
      match nth_error (sy_tasks s) i with
      | None => s
      | Some t =>
          let '(c, k, ev) := tstep (sy_ctx s) t in
          mkSys c (firstn i (sy_tasks s) ++ (match k with Some t' => [t'] | None => [] end)
                     ++ skipn (S i) (sy_tasks s)) (sy_log s ++ ev)
      end
  end.
Definition srun (s : sys) (ls : list label) : sys := fold_left sstep ls s.
End Order.

Definition sys_new (q : req) : sys := mkSys (ctx_new q) [] [].

(** *** The table of contexts *)
(** stateful.rs:872-884 [StatefulProxy]: per context its Call-ID and creation time *)
Definition ctable := list (str * (str * N)).
(** stateful.rs:923-927: the check of [start_context] *)
Definition start_check (t : ctable) : bool := negb (MAX_PROXY_CONTEXTS <=? llen t).
(** stateful.rs:942: the insertion of [start_context] *)
Definition start_insert (t : ctable) (branch call : str) (now : N) : ctable :=
  insert str_eqb branch (call, now) t.
(** stateful.rs:964-973 [remove_context], [cleanup_old] (300 s) *)
Inductive cop := CStart (branch call : str) (now : N) | CRemove (branch : str) | CCleanup (now : N).
Definition CLEANUP_NS : N := 300000000000.
Definition cstep (t : ctable) (o : cop) : ctable :=
  match o with
  | CStart b c now => if start_check t then start_insert t b c now else t
  | CRemove b => remove_key str_eqb b t
  | CCleanup now => filter (fun e => now - snd (snd e) <? CLEANUP_NS) t
  end.
Definition crun (t : ctable) (ops : list cop) : ctable := fold_left cstep ops t.
(** stateful.rs:947-949 [find_context]; 952-957 [find_context_by_call_id]
    (some entry with the Call-ID; the iteration order is unspecified) *)
Definition find_context (t : ctable) (b : str) : option (str * N) := lookup str_eqb b t.
Definition find_by_call (t : ctable) (call : str) : option (str * (str * N)) :=
  find (fun e => str_eqb (fst (snd e)) call) t.
(** concurrent [start_context] calls: the check and the insertion are separate *)
Inductive cact := ACheck | AInsert (branch call : str) (now : N) | AOther (o : cop).
Definition castep (st : ctable * N) (a : cact) : ctable * N :=
  let (t, ready) := st in
  match a with
  | ACheck => if start_check t then (t, ready + 1) else st
  | AInsert b c now => if 0 <? ready then (start_insert t b c now, ready - 1) else st
  | AOther (CStart _ _ _) => st
  | AOther o => (cstep t o, ready)
  end.
