(** One-word headers: what the words are (specification only). *)
From Coq Require Import NArith Bool String List.
Import ListNotations.
From Verif Require Import Base Text Words.
Open Scope N_scope.
Open Scope list_scope.

Definition token_char (c : N) : Prop :=
  (48 <= c <= 57) \/ (65 <= c <= 90) \/ (97 <= c <= 122) \/ In c (lit "-.!%*_+`'~").
(** a token of at most [n] characters *)
Definition token (n : N) (s : str) : Prop := s <> [] /\ (forall c, In c s -> token_char c) /\ N.of_nat (List.length s) <= n.
(** the same with the two characters that only priorities may have *)
Definition wide_token (n : N) (s : str) : Prop :=
  s <> [] /\ (forall c, In c s -> token_char c \/ c = 94 \/ c = 124) /\ N.of_nat (List.length s) <= n.
Definition no_capitals (s : str) : Prop := forall c, In c s -> ~ (65 <= c <= 90).
(** two texts that differ only in the case of ASCII letters *)
Definition same_letters (a b : str) : Prop := lower a = lower b.

(** the headers that a caller can build *)
Inductive built : event -> Prop :=
| b_new : forall p e, event_new p = Some e -> built e
| b_id : forall e i e', built e -> with_id e i = Some e' -> built e'
| b_add : forall e n v e', built e -> event_add e n v = Some e' -> built e'.
Inductive built_sub : sub_header -> Prop :=
| s_new : forall x, built_sub (sub_new x)
| s_add : forall h n v h', built_sub h -> sub_add h n v = Some h' -> built_sub h'.
(** parameters within the limits *)
Definition within (p : params) : Prop :=
  (List.length p <= 20)%nat /\ sorted_keys p
  /\ forall n v, In (n, v) p -> (token 64 n /\ no_capitals n) /\ forall t, v = Some t -> token 256 t.
