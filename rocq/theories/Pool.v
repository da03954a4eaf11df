(** Model of the connection pools: crates/sip-transport/src/pool.rs.
    One model serves both pools: [ConnectionPool] uses the keys [KTcp] and [KWs], the
    TLS pool the keys [KTls].
    A pool is shared by many callers.  Each call of [send_tcp], [send_ws] or [send_tls]
    is a task here, and every access to the shared map, the semaphore or a channel is
    one step; steps of different tasks interleave in any order.
    Simplifications: a socket address is a number; keep-alive pings, metrics, events
    and the reader task are left out; a caller that waits for room in a full channel
    holds a lock on part of the map, here the others go on (so there are more
    executions, not fewer). *)
From Coq Require Import NArith Bool String List.
Import ListNotations.
From Verif Require Import Base Framing.
Open Scope N_scope.
Open Scope list_scope.

(** pool.rs:321-327, 861-864: the keys of the maps *)
Inductive key := KTcp (addr : N) | KWs (url : str) | KTls (addr : N) (name : str).
Definition key_eqb (a b : key) : bool :=
  match a, b with
  | KTcp x, KTcp y => x =? y
  | KWs x, KWs y => str_eqb x y
  | KTls x n, KTls y m => (x =? y) && str_eqb n m
  | _, _ => false
  end.
(** pool.rs:84-95 [PoolEntry]: [en_conn] stands for the sender and the task handles;
    the permit is accounted for in [po_free] *)
Record entry := mkEntry { en_conn : nat; en_used : N }.
(** One connection: its channel, what its writer has put on the wire, whether the
    writer still runs, whether it was told to stop, and whether its supervisor has
    still to act *)
Record conn := mkConn { cn_key : key; cn_queue : list (list N); cn_written : list (list N);
  cn_run : bool; cn_abort : bool; cn_sup : bool }.
(** Where a call is *)
Inductive task :=
| SStart (k : key) (p : list N)                      (* about to look the key up *)
| SRemove (k : key) (p : list N)                     (* the connection was dead: about to remove the entry *)
| SAlt (k : key) (p : list N)                        (* TLS: about to look for another connection to the address *)
| SAltSend (k : key) (p : list N) (k' : key)
| SAltRemove (k : key) (p : list N) (k' : key)
| SReserve (k : key) (p : list N) (stage : N)
| SClean (k : key) (p : list N) (ks : list key)      (* cleaning up idle entries *)
| SEvict (k : key) (p : list N) (ks : list key)      (* removing the entries found to be oldest *)
| SConnect (k : key) (p : list N)                    (* holds a permit; connecting *)
| SOpened (k : key) (p : list N) (c : nat) (used : N)(* holds an entry not yet in the map *)
| SQueue (k : key) (p : list N) (c : nat)            (* entry inserted; about to send *)
| SUndo (k : key) (p : list N)                       (* sending failed; about to remove the key *)
| SDone (k : key) (p : list N) (res : option nat).   (* returned: Ok, sent on a connection, or Err *)

Record pool := mkPool { po_map : list (key * entry); po_free : N; po_conns : list conn; po_tasks : list task; po_now : N }.
(** pool.rs:384-398, 909-923 [with_limits] *)
Record pcfg := mkPcfg { pc_max : N; pc_idle : N }.
Definition pool_new (cfg : pcfg) : pool := mkPool [] (pc_max cfg) [] [] 0.
(** pool.rs:564: [mpsc::channel(64)] *)
Definition CHANNEL : N := 64.

Definition set_nth {A} (i : nat) (x : A) (l : list A) : list A :=
  firstn i l ++ match skipn i l with [] => [] | _ :: r => x :: r end.
Definition with_map (st : pool) (m : list (key * entry)) : pool :=
  mkPool m (po_free st) (po_conns st) (po_tasks st) (po_now st).
Definition with_free (st : pool) (f : N) : pool :=
  mkPool (po_map st) f (po_conns st) (po_tasks st) (po_now st).
Definition with_conns (st : pool) (cs : list conn) : pool :=
  mkPool (po_map st) (po_free st) cs (po_tasks st) (po_now st).
Definition with_tasks (st : pool) (ts : list task) : pool :=
  mkPool (po_map st) (po_free st) (po_conns st) ts (po_now st).
Definition set_conn (st : pool) (c : nat) (x : conn) : pool := with_conns st (set_nth c x (po_conns st)).

(** pool.rs:97-103 [Drop for PoolEntry]: the tasks are told to stop and the permit is
    given back *)
Definition abort_conn (st : pool) (c : nat) : pool :=
  match nth_error (po_conns st) c with
  | Some x => set_conn st c (mkConn (cn_key x) (cn_queue x) (cn_written x) (cn_run x) true (cn_sup x))
  | None => st
  end.
Definition release (st : pool) (c : nat) : pool := with_free (abort_conn st c) (po_free st + 1).
(** [DashMap::remove], dropping what was there *)
Definition drop_key (st : pool) (k : key) : pool :=
  match lookup key_eqb k (po_map st) with
  | Some e => release (with_map st (remove_key key_eqb k (po_map st))) (en_conn e)
  | None => st
  end.
(** pool.rs:131-133 [is_idle] *)
Definition is_idle (cfg : pcfg) (st : pool) (e : entry) : bool := pc_idle cfg <? po_now st - en_used e.
Definition drop_idle (cfg : pcfg) (st : pool) (k : key) : pool :=
  match lookup key_eqb k (po_map st) with
  | Some e => if is_idle cfg st e then drop_key st k else st
  | None => st
  end.
(** pool.rs:464-486, 1014-1026 [cleanup_idle]; 947-981 the sweeper *)
Definition cleanup_idle (cfg : pcfg) (st : pool) : pool := fold_left (drop_idle cfg) (keys (po_map st)) st.

(** pool.rs:490-507, 1030-1047 [evict_lru]: the keys to be removed; WebSocket entries
    are not looked at *)
Definition evictable (k : key) : bool := match k with KWs _ => false | _ => true end.
Fixpoint ins_used (x : key * entry) (l : list (key * entry)) : list (key * entry) :=
  match l with
  | [] => [x]
  | y :: r => if en_used (snd x) <=? en_used (snd y) then x :: l else y :: ins_used x r
  end.
Definition sort_used (l : list (key * entry)) : list (key * entry) := fold_right ins_used [] l.
Definition evict_count (cfg : pcfg) : nat := N.to_nat (N.max 1 (pc_max cfg / 10)).
Definition lru (cfg : pcfg) (m : list (key * entry)) : list key :=
  map fst (firstn (evict_count cfg) (sort_used (filter (fun x => evictable (fst x)) m))).

(** [touch] and [sender.send]: [None] while the channel is full, [Some None] when the
    writer has gone *)
Definition touch (st : pool) (k : key) (e : entry) : pool :=
  with_map st (map (fun x => if key_eqb (fst x) k then (fst x, mkEntry (en_conn (snd x)) (po_now st)) else x) (po_map st)).
Definition chan_send (st : pool) (c : nat) (p : list N) : option (option pool) :=
  match nth_error (po_conns st) c with
  | Some x =>
      if cn_run x then
        if llen (cn_queue x) <? CHANNEL
        then Some (Some (set_conn st c (mkConn (cn_key x) (cn_queue x ++ [p]) (cn_written x) true (cn_abort x) (cn_sup x))))
        else None
      else Some None
  | None => Some None
  end.
(** [DashMap::insert], dropping what was there *)
Definition put_entry (st : pool) (k : key) (e : entry) : pool :=
  let st1 := drop_key st k in with_map st1 (insert key_eqb k e (po_map st1)).

Definition same_addr (a b : key) : bool :=
  match a, b with KTls x _, KTls y _ => x =? y | _, _ => false end.

(** One step of a call: pool.rs:510-691 [send_tcp], 708-838 [send_ws], 1049-1218
    [send_tls], 427-437 and 989-999 [reserve_slot].  [ks] says in which order the map is
    gone through, [ok] whether connecting succeeds. *)
Definition task_step (cfg : pcfg) (ks : list key) (ok : bool) (st : pool) (t : task) : option (pool * task) :=
  match t with
  | SStart k p =>
      match lookup key_eqb k (po_map st) with
      | Some e => match chan_send (touch st k e) (en_conn e) p with
                  | Some (Some st') => Some (st', SDone k p (Some (en_conn e)))
                  | Some None => Some (touch st k e, SRemove k p)
                  | None => None
                  end
      | None => Some (st, SAlt k p)
      end
  | SRemove k p => Some (drop_key st k, SAlt k p)
  | SAlt k p =>
      match find (same_addr k) (filter (fun x => is_some (lookup key_eqb x (po_map st))) ks ++ keys (po_map st)) with
      | Some k' => Some (st, SAltSend k p k')
      | None => Some (st, SReserve k p 0)
      end
  | SAltSend k p k' =>
      match lookup key_eqb k' (po_map st) with
      | Some e => match chan_send (touch st k' e) (en_conn e) p with
                  | Some (Some st') => Some (st', SDone k p (Some (en_conn e)))
                  | Some None => Some (touch st k' e, SAltRemove k p k')
                  | None => None
                  end
      | None => Some (st, SReserve k p 0)
      end
  | SAltRemove k p k' => Some (drop_key st k', SReserve k p 0)
  | SReserve k p n =>
      if 0 <? po_free st then Some (with_free st (po_free st - 1), SConnect k p)
      else if n =? 0 then Some (st, SClean k p ks)
      else if n =? 1 then Some (st, SEvict k p (lru cfg (po_map st)))
      else Some (st, SDone k p None)
  | SClean k p [] => Some (st, SReserve k p 1)
  | SClean k p (x :: r) => Some (drop_idle cfg st x, SClean k p r)
  | SEvict k p [] => Some (st, SReserve k p 2)
  | SEvict k p (x :: r) => Some (drop_key st x, SEvict k p r)
  | SConnect k p =>
      if ok then Some (with_conns st (po_conns st ++ [mkConn k [] [] true false true]),
                       SOpened k p (length (po_conns st)) (po_now st))
      else Some (with_free st (po_free st + 1), SDone k p None)
  | SOpened k p c used => Some (put_entry st k (mkEntry c used), SQueue k p c)
  | SQueue k p c =>
      match chan_send st c p with
      | Some (Some st') => Some (st', SDone k p (Some c))
      | Some None => Some (st, SUndo k p)
      | None => None
      end
  | SUndo k p => Some (drop_key st k, SDone k p None)
  | SDone _ _ _ => None
  end.
(** The caller drops the future, which can happen where it waits *)
Definition task_cancel (st : pool) (t : task) : option (pool * task) :=
  match t with
  | SStart k p => Some (st, SDone k p None)
  | SAltSend k p _ => Some (st, SDone k p None)
  | SConnect k p => Some (with_free st (po_free st + 1), SDone k p None)
  | SOpened k p c _ => Some (release st c, SDone k p None)
  | SQueue k p _ => Some (st, SDone k p None)
  | _ => None
  end.

Inductive action :=
| ASend (k : key) (p : list N)                 (* a new call *)
| AStep (i : nat) (ks : list key) (ok : bool)  (* call number i goes on *)
| ACancel (i : nat)
| AWrite (c : nat)                             (* the writer puts the next payload on the wire *)
| AEnd (c : nat)                               (* the writer ends: write failure or panic *)
| AStopped (c : nat)                           (* the writer is stopped, as it was told to *)
| ASupervise (c : nat)                         (* the supervisor of an ended writer acts *)
| ASweep (ks : list key)                       (* cleanup_idle from elsewhere *)
| ATick (d : N).
Definition put_task (i : nat) (r : option (pool * task)) : option pool :=
  match r with Some (st, t) => Some (with_tasks st (set_nth i t (po_tasks st))) | None => None end.
(** [None]: the action is not possible *)
Definition pstep (cfg : pcfg) (st : pool) (a : action) : option pool :=
  match a with
  | ASend k p => Some (with_tasks st (po_tasks st ++ [SStart k p]))
  | AStep i ks ok => match nth_error (po_tasks st) i with Some t => put_task i (task_step cfg ks ok st t) | None => None end
  | ACancel i => match nth_error (po_tasks st) i with Some t => put_task i (task_cancel st t) | None => None end
  | AWrite c =>
      (* pool.rs:188-235 [run_stream_writer_with_keepalive] *)
      match nth_error (po_conns st) c with
      | Some x => match cn_queue x with
                  | p :: q => if cn_run x then Some (set_conn st c (mkConn (cn_key x) q (cn_written x ++ [p]) true (cn_abort x) (cn_sup x))) else None
                  | [] => None
                  end
      | None => None
      end
  | AEnd c =>
      match nth_error (po_conns st) c with
      | Some x => if cn_run x then Some (set_conn st c (mkConn (cn_key x) (cn_queue x) (cn_written x) false (cn_abort x) (cn_sup x))) else None
      | None => None
      end
  | AStopped c =>
      match nth_error (po_conns st) c with
      | Some x => if cn_run x && cn_abort x
                  then Some (set_conn st c (mkConn (cn_key x) (cn_queue x) (cn_written x) false (cn_abort x) (cn_sup x))) else None
      | None => None
      end
  | ASupervise c =>
      (* pool.rs:252-316 [spawn_writer_supervisor]: removes by key *)
      match nth_error (po_conns st) c with
      | Some x => if negb (cn_run x) && cn_sup x
                  then Some (drop_key (set_conn st c (mkConn (cn_key x) (cn_queue x) (cn_written x) false (cn_abort x) false)) (cn_key x))
                  else None
      | None => None
      end
  | ASweep ks => Some (fold_left (drop_idle cfg) ks st)
  | ATick d => Some (mkPool (po_map st) (po_free st) (po_conns st) (po_tasks st) (po_now st + d))
  end.
Fixpoint prun (cfg : pcfg) (st : pool) (l : list action) : option pool :=
  match l with
  | [] => Some st
  | a :: r => match pstep cfg st a with Some st' => prun cfg st' r | None => None end
  end.
