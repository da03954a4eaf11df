(** Model of the sharding keys (crates/sip-transaction/src/sharding.rs).  The hash of a text
    (sharding.rs:12-17, SipHash with fixed keys) is a parameter. *)
From Coq Require Import Arith NArith Bool String List.
Import ListNotations.
From Verif Require Import Base Headers Method.
Open Scope N_scope.
Open Scope list_scope.

Section Hash.
Variable hash : str -> N.
(** sharding.rs:20-22 [shard_by_call_id] *)
Definition by_call_id (c : str) : N := hash c.
(** [u64 << 32]: the upper half is lost *)
Definition shl32 (x : N) : N := (x * 4294967296) mod 18446744073709551616.
(** sharding.rs:25-33 [shard_by_transaction_key] *)
Definition by_transaction (branch : str) (m : method) (server : bool) : N :=
  let base := N.lxor (hash branch) (shl32 (hash (method_str m))) in
  if server then N.lxor base 1 else base.
(** sharding.rs:36-41 [shard_by_dialog_id] *)
Definition by_dialog (call_id local remote : str) : N := N.lxor (N.lxor (hash call_id) (hash local)) (hash remote).
(** sharding.rs:44-46 [shard_key_from_headers] *)
Definition by_headers (hs : headers) : option N := match hget (lit "Call-ID") hs with Some c => Some (by_call_id c) | None => None end.
End Hash.
