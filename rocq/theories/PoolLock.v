(** The lock on the map across a wait: crates/sip-transport/src/pool.rs:510-518.
    [get_mut] locks the part of the map (shard) the key is in; the guard lives while
    [sender.send] waits for room in the channel.  A task that waits for the channel
    gives its thread back to the runtime; one that waits for the lock of the map does
    not, since that lock blocks the thread.
    Modelled: the calls for the keys of one shard that find the same connection, its
    writer, and the threads of the runtime.  Simplifications: a call that does not have
    to wait is one step; the socket always takes what is written. *)
From Coq Require Import NArith Bool List.
Import ListNotations.
From Verif Require Import Base Pool.
Open Scope N_scope.

(** [lk_free] threads with nothing to run; [lk_waiting] whether a call holds the lock and
    waits for room; [lk_blocked] calls that keep a thread, waiting for the lock *)
Record shard := mkShard { lk_free : N; lk_queue : N; lk_waiting : bool; lk_blocked : N; lk_sent : N }.
Definition shard_new (threads : N) : shard := mkShard threads 0 false 0 0.
Inductive lact :=
| LCall     (* a thread starts [send_tcp] *)
| LWrite    (* a thread runs the writer, which writes one payload *)
| LResume.  (* a thread goes on with the call that waited for room *)

(** Blocked calls go on, one after the other, once the lock is free *)
Fixpoint unblock (n : nat) (s : shard) : shard :=
  match n with
  | O => s
  | S m =>
      if lk_waiting s then s
      else if lk_queue s <? CHANNEL
      then unblock m (mkShard (lk_free s + 1) (lk_queue s + 1) false (lk_blocked s - 1) (lk_sent s + 1))
      else mkShard (lk_free s + 1) (lk_queue s) true (lk_blocked s - 1) (lk_sent s)
  end.
Definition lstep (s : shard) (a : lact) : option shard :=
  if lk_free s =? 0 then None
  else match a with
  | LCall =>
      if lk_waiting s then Some (mkShard (lk_free s - 1) (lk_queue s) true (lk_blocked s + 1) (lk_sent s))
      else if lk_queue s <? CHANNEL then Some (mkShard (lk_free s) (lk_queue s + 1) false (lk_blocked s) (lk_sent s + 1))
      else Some (mkShard (lk_free s) (lk_queue s) true (lk_blocked s) (lk_sent s))
  | LWrite => if 0 <? lk_queue s then Some (mkShard (lk_free s) (lk_queue s - 1) (lk_waiting s) (lk_blocked s) (lk_sent s)) else None
  | LResume =>
      if lk_waiting s && (lk_queue s <? CHANNEL)
      then Some (unblock (N.to_nat (lk_blocked s)) (mkShard (lk_free s) (lk_queue s + 1) false (lk_blocked s) (lk_sent s + 1)))
      else None
  end.
Fixpoint lrun (s : shard) (l : list lact) : option shard :=
  match l with
  | [] => Some s
  | a :: r => match lstep s a with Some s' => lrun s' r | None => None end
  end.
