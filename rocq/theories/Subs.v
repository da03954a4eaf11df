(** Model of event subscriptions: crates/sip-dialog/src/lib.rs:1122-1206 and 1340-1737.
    Line numbers below are of that file.  Errors are [None]: which of them is reported
    is not modelled. *)
From Coq Require Import NArith Bool String List.
Import ListNotations.
From Verif Require Import Base Headers Method Uri Msg Dialog.
Open Scope N_scope.
Open Scope list_scope.

(** 1344-1353 [SubscriptionState] *)
Inductive sub_state := Active | Pending | Ended.
(** 1356-1363 [as_str] *)
Definition state_text (x : sub_state) : str :=
  match x with Active => lit "active" | Pending => lit "pending" | Ended => lit "terminated" end.
Definition is_ended (x : sub_state) : bool := match x with Ended => true | _ => false end.

(** 1369-1374 [SubscriptionId] and its derived equality *)
Record sub_id := mkSid { si_call : str; si_from : str; si_to : str; si_event : str }.
Definition sid_eqb (a b : sub_id) : bool :=
  str_eqb (si_call a) (si_call b) && str_eqb (si_from a) (si_from b) && str_eqb (si_to a) (si_to b)
  && str_eqb (si_event a) (si_event b).

(** 1144-1157: the parameters of an event; slicing at byte 3 panics inside a character *)
Fixpoint event_params_ok (ps : list str) : outcome bool :=
  match ps with
  | [] => Ret true
  | p :: r =>
      let t := trim p in
      if 3 <=? blen t then
        match split_bytes 3 t with
        | None => Panics
        | Some (a, b) =>
            if eq_ic a (lit "id=") then
              let i := trim_by (N.eqb 34) (trim b) in
              if (128 <? blen i) || existsb is_control i then Ret false else event_params_ok r
            else event_params_ok r
        end
      else event_params_ok r
  end.
(** 1123-1159 [validate_event_package] *)
Definition event_ok (e : str) : outcome bool :=
  match split_on 59 e with
  | [] => Ret false
  | h :: ps =>
      let p := trim h in
      if str_eqb p [] || (64 <? blen p) || existsb is_control p then Ret false else event_params_ok ps
  end.
(** 1161-1193 [validate_subscription_call_id], [validate_subscription_tag]: as for dialogs.
    1382-1404 [SubscriptionId::new] *)
Definition sid_new (call from to event : str) : outcome (option sub_id) :=
  if no_err (validate_call_id call) && no_err (validate_tag from) && no_err (validate_tag to) then
    match event_ok event with
    | Ret true => Ret (Some (mkSid call from to event))
    | Ret false => Ret None
    | Panics => Panics
    end
  else Ret None.

(** 1463-1481: the identifier from the headers of the request and those with the To
    header *)
Definition sid_of (qh th : headers) : outcome (option sub_id) :=
  match header_of qh (lit "Call-ID") with
  | None => Ret None
  | Some c =>
      match header_of qh (lit "From") with
      | None => Ret None
      | Some f =>
          match extract_tag f with
          | Panics => Panics
          | Ret None => Ret None
          | Ret (Some ft) =>
              match header_of th (lit "To") with
              | None => Ret None
              | Some t =>
                  match extract_tag t with
                  | Panics => Panics
                  | Ret None => Ret None
                  | Ret (Some tg) =>
                      match header_of qh (lit "Event") with
                      | None => Ret None
                      | Some e => Ret (Some (mkSid c ft tg e))
                      end
                  end
              end
          end
      end
  end.
(** 1463-1469 [from_request] *)
Definition sid_from_request (rq : req) : outcome (option sub_id) := sid_of (q_headers rq) (q_headers rq).
(** 1473-1479 [from_request_response] *)
Definition sid_from_both (rq : req) (rs : resp) : outcome (option sub_id) := sid_of (q_headers rq) (p_headers rs).

(** 1484-1493 [Subscription]; the expiry in seconds (the constructors make whole seconds) *)
Record sub := mkSub {
  s_id : sub_id; s_state : sub_state; s_local : sip_uri; s_remote : sip_uri; s_contact : sip_uri;
  s_expires : N; s_lcseq : N; s_rcseq : N }.

(** 1509-1515 and 1543-1547: the first of the texts that is there is read as a u64 *)
Fixpoint expiry (os : list (option str)) : option N :=
  match os with
  | [] => Some 3600
  | Some t :: _ => parse_uint u64_max t
  | None :: r => expiry r
  end.
(** the common part of 1497-1527 [new_notifier] and 1530-1560 [new_subscriber] *)
Definition sub_make (rq : req) (rs : resp) (local remote : sip_uri) (exp : option N) : outcome (option sub) :=
  match sid_from_both rq rs with
  | Panics => Panics
  | Ret None => Ret None
  | Ret (Some i) =>
      match extract_contact (p_headers rs) with
      | None => Ret None
      | Some c =>
          match parse_cseq_number (q_headers rq) with
          | None => Ret None
          | Some n =>
              if is_some (validate_cseq n) then Ret None
              else match exp with
                   | None => Ret None
                   | Some e => Ret (Some (mkSub i Active local remote c e n 0))
                   end
          end
      end
  end.
Definition new_notifier (rq : req) (rs : resp) (local remote : sip_uri) : outcome (option sub) :=
  sub_make rq rs local remote (expiry [header_of (p_headers rs) (lit "Expires"); header_of (q_headers rq) (lit "Expires")]).
Definition new_subscriber (rq : req) (rs : resp) (local remote : sip_uri) : outcome (option sub) :=
  sub_make rq rs local remote (expiry [header_of (p_headers rs) (lit "Expires")]).
(** 1635-1638 [next_local_cseq]: the addition panics at the largest u32 (with overflow
    checks) *)
Definition next_cseq (s : sub) : outcome (sub * N) :=
  if s_lcseq s <? u32_max
  then Ret (mkSub (s_id s) (s_state s) (s_local s) (s_remote s) (s_contact s) (s_expires s) (s_lcseq s + 1) (s_rcseq s), s_lcseq s + 1)
  else Panics.
(** 1641-1643 [update_state], 1646-1648 [update_expires] *)
Definition update_state (s : sub) (x : sub_state) : sub :=
  mkSub (s_id s) x (s_local s) (s_remote s) (s_contact s) (s_expires s) (s_lcseq s) (s_rcseq s).
Definition update_expires (s : sub) (e : N) : sub :=
  mkSub (s_id s) (s_state s) (s_local s) (s_remote s) (s_contact s) e (s_lcseq s) (s_rcseq s).

(** ** The manager (1653-1731) *)
Definition smap := list (sub_id * sub).
(** 41 *)
Definition MAX_SUBS : N := 10000.
(** 1673-1686 [insert]: one step, a lock is held; [None] is an error *)
Definition sm_insert (m : smap) (s : sub) : option smap :=
  if MAX_SUBS <=? llen m then None else Some (insert sid_eqb (s_id s) s m).
(** 1689-1693 [get], 1696-1698 [remove], 1701-1706 [all], 1709-1715 [by_event] *)
Definition sm_get (m : smap) (i : sub_id) : option sub := lookup sid_eqb i m.
Definition sm_remove (m : smap) (i : sub_id) : smap := remove_key sid_eqb i m.
Definition sm_all (m : smap) : list sub := map snd m.
Definition sm_by_event (m : smap) (e : str) : list sub := filter (fun s => str_eqb (si_event (s_id s)) e) (sm_all m).
(** 1719-1724: the keys [cleanup_terminated] collects.  The scan is one step here
    (DashMap locks one shard after the other) *)
Definition collect (m : smap) : list sub_id := map fst (filter (fun p => is_ended (s_state (snd p))) m).
(** 1718-1731 [cleanup_terminated] with nothing in between *)
Definition cleanup (m : smap) : smap * N := (fold_left sm_remove (collect m) m, llen (collect m)).

(** Threads that share the manager: [cleanup_terminated] collects in one step and then
    removes one key after the other, with anything in between.  [ms_due] are the keys
    collected by such calls and not removed yet. *)
Record shared := mkShared { ms_map : smap; ms_due : list sub_id }.
Inductive step :=
| Insert (s : sub)
| Remove (i : sub_id)
| Collect
| Drop (k : nat).   (* one of the calls goes on: it removes the key at place [k] of [ms_due] *)
Definition without {A} (k : nat) (l : list A) : list A := firstn k l ++ skipn (S k) l.
Definition run1 (x : shared) (o : step) : shared :=
  match o with
  | Insert s => match sm_insert (ms_map x) s with Some m => mkShared m (ms_due x) | None => x end
  | Remove i => mkShared (sm_remove (ms_map x) i) (ms_due x)
  | Collect => mkShared (ms_map x) (ms_due x ++ collect (ms_map x))
  | Drop k => match nth_error (ms_due x) k with
              | Some i => mkShared (sm_remove (ms_map x) i) (without k (ms_due x))
              | None => x
              end
  end.
Definition run (l : list step) (x : shared) : shared := fold_left run1 l x.
Definition empty : shared := mkShared [] [].
