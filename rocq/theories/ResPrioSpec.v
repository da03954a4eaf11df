(** Resource-Priority headers: what a text says (specification only). *)
From Coq Require Import NArith Bool String List.
Import ListNotations.
From Verif Require Import Base ResPrio.
Open Scope N_scope.
Open Scope list_scope.

(** a namespace or a priority: one to 64 bytes without white space and control characters *)
Definition word (s : str) : Prop := s <> [] /\ blen s <= 64 /\ forall c, In c s -> 32 <= c /\ c <> 127 /\ is_ws c = false.
Definition white (s : str) : Prop := forall c, In c s -> is_ws c = true.
(** headers that a caller can build: an empty one, one with a single value, and additions *)
Inductive built : list rvalue -> Prop :=
| b_new : built []
| b_single : forall n p v, value_new n p = Some v -> built [v]
| b_add : forall l n p v l', built l -> value_new n p = Some v -> add_value l v = Some l' -> built l'.
(** the parts of a text between its commas, and the values they stand for: a blank part
    stands for nothing; any other is a namespace, a full stop and a priority, with white
    space round it *)
Inductive stands : list str -> list rvalue -> Prop :=
| s_nil : stands [] []
| s_blank : forall p ps l, white p -> stands ps l -> stands (p :: ps) l
| s_value : forall a n q b ps l, white a -> white b -> word n -> word q -> ~ In 46 n -> stands ps l -> stands ((a ++ n ++ lit "." ++ q ++ b) :: ps) (mkValue n q :: l).
Definition says (s : str) (l : list rvalue) : Prop :=
  blen s <= 512 /\ (List.length l <= 10)%nat /\ exists ps, ps <> [] /\ s = join [44] ps /\ (forall p, In p ps -> ~ In 44 p) /\ stands ps l.
(** values whose text can only be read in one way *)
Definition plain (v : rvalue) : Prop := ~ In 46 (v_space v) /\ ~ In 44 (v_space v) /\ ~ In 44 (v_priority v).
