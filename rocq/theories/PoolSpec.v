(** Vocabulary for the properties of the connection pools (C61, C62, C104, C105). *)
From Coq Require Import NArith Bool String List.
Import ListNotations.
From Verif Require Import Base Pool.
Open Scope N_scope.
Open Scope list_scope.

(** a call that is opening a connection *)
Definition opening (t : task) : bool := match t with SConnect _ _ | SOpened _ _ _ _ => true | _ => false end.
Definition in_progress (st : pool) : N := llen (filter opening (po_tasks st)).
(** connections whose socket is still held by a running writer *)
Definition open_sockets (st : pool) : N := llen (filter cn_run (po_conns st)).

(** The sends that have returned Ok, in the order in which they did, with the
    connection used: read off the states along an execution *)
Definition is_done (t : task) : bool := match t with SDone _ _ _ => true | _ => false end.
Fixpoint newly (before after : list task) : list (nat * list N) :=
  match before, after with
  | b :: bs, t :: ts => (if is_done b then [] else match t with SDone _ p (Some c) => [(c, p)] | _ => [] end) ++ newly bs ts
  | _, _ => []
  end.
Fixpoint accepted (cfg : pcfg) (st : pool) (l : list action) : list (nat * list N) :=
  match l with
  | [] => []
  | a :: r => match pstep cfg st a with
              | Some st' => newly (po_tasks st) (po_tasks st') ++ accepted cfg st' r
              | None => []
              end
  end.
Definition on (c : nat) (l : list (nat * list N)) : list (list N) :=
  map snd (filter (fun x => Nat.eqb (fst x) c) l).

(** a call for [k] may use a connection opened for [k'] *)
Definition serves (k k' : key) : Prop :=
  k' = k \/ exists a n m, k = KTls a n /\ k' = KTls a m.

(** [c] is the pool's connection for [k], and in working order *)
Definition pooled (st : pool) (k : key) (c : nat) : Prop :=
  exists e, lookup key_eqb k (po_map st) = Some e /\ en_conn e = c.
Definition working (st : pool) (c : nat) : Prop :=
  exists x, nth_error (po_conns st) c = Some x /\ cn_run x = true /\ cn_abort x = false.
(** a call in flight that is about to act on [k] because of something it saw before
    [c] became the connection for [k] *)
Definition concerns (k : key) (c : nat) (t : task) : Prop :=
  match t with
  | SRemove x _ | SUndo x _ | SReserve x _ _ | SConnect x _ | SOpened x _ _ _ | SAlt x _ | SAltSend x _ _ => x = k
  | SAltRemove x _ y => x = k \/ y = k
  | SClean x _ ks | SEvict x _ ks => x = k \/ In k ks
  | SQueue x _ c' => x = k /\ c' <> c
  | SStart _ _ | SDone _ _ _ => False
  end.
(** during [l] the writer of [c] does not fail, and [k] is neither found idle nor
    chosen for eviction *)
Definition evicting (k : key) (t : task) : Prop := match t with SEvict _ _ ks => In k ks | _ => False end.
Fixpoint spared (cfg : pcfg) (k : key) (c : nat) (st : pool) (l : list action) : Prop :=
  match l with
  | [] => True
  | a :: r =>
      (match a with AEnd c' => c' <> c | ASweep ks => ~ In k ks | AStep _ ks _ => ~ In k ks | _ => True end)
      /\ match pstep cfg st a with
         | Some st' => (forall t, In t (po_tasks st') -> ~ evicting k t) /\ spared cfg k c st' r
         | None => True
         end
  end.

(** A call running alone from the moment it asks for a slot until it has one or gives
    up; the map is gone through in its own order *)
Fixpoint solo (fuel : nat) (cfg : pcfg) (st : pool) (t : task) : option (pool * task) :=
  match t with
  | SConnect _ _ | SDone _ _ _ => Some (st, t)
  | _ => match fuel with
         | O => None
         | S n => match task_step cfg (keys (po_map st)) true st t with
                  | Some (st', t') => solo n cfg st' t'
                  | None => None
                  end
         end
  end.
Definition idle (cfg : pcfg) (st : pool) (x : key * entry) : Prop := pc_idle cfg < po_now st - en_used (snd x).
