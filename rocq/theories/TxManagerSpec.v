(** Vocabulary for the statements about the transaction manager. *)
From Coq Require Import NArith Bool List.
Import ListNotations.
From Verif Require Import Base Headers Method Fsm TxManager.
Open Scope N_scope.

(** a history: operations with the network outcomes met during each *)
Fixpoint history (c : config) (m : mgr) (ops : list (list bool * op)) : mgr * list out :=
  match ops with
  | [] => (m, [])
  | x :: r => let '(m1, o1) := step c m x in
              let '(m2, o2) := history c m1 r in (m2, o1 ++ o2)
  end.
Definition reachable (c : config) (m : mgr) : Prop := exists ops, m = fst (history c mgr_init ops).

(** the key, user and response an output is about *)
Definition about (k : key) (tu : N) (r : response) (o : out) : Prop :=
  match o with
  | OProvisional k' tu' r' | OFinal k' tu' r' | OPrack k' tu' r' | OAck k' tu' r' _ =>
      k' = k /\ tu' = tu /\ r' = r
  | _ => False
  end.
(** outputs that hand a response to the transaction user *)
Definition handed (o : out) : list (key * N * response) :=
  match o with OProvisional k tu r | OFinal k tu r => [(k, tu, r)] | _ => [] end.
(** the sends of a transaction, in order, with their outcome *)
Definition sends (k : key) (o : out) : list (target * bool) :=
  match o with OSend k' t _ ok => if key_eqb k k' then [(t, ok)] else [] | _ => [] end.

(** a client transaction still waiting for its final response *)
Definition waiting (f : client_kind) : bool :=
  match f with
  | CkInvite f => match ci_st f with CiCalling | CiProceeding => true | _ => false end
  | CkNon f => match cn_st f with CnTrying | CnProceeding => true | _ => false end
  end.
