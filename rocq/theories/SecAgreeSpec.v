(** Security agreement: what can be built, which texts hold together, and what the best
    match is (specification only). *)
From Coq Require Import NArith Bool String List.
Import ListNotations.
From Verif Require Import Base Text SecAgree.
Open Scope N_scope.
Open Scope list_scope.

(** the entries that a caller can build *)
Inductive built : entry -> Prop :=
| b_new : forall m, built (entry_new m)
| b_set : forall e n v e', built e -> set_param e n v = Some e' -> built e'.

Definition word (s : str) : Prop := s <> [] /\ blen s <= 64 /\ forall c, In c s -> is_control c = false /\ is_ws c = false.
(** within the limits *)
Definition within (e : entry) : Prop :=
  (List.length (e_params e) <= 20)%nat /\ sorted_keys (e_params e)
  /\ forall n v, In (n, v) (e_params e) ->
       (word n /\ forall c, In c n -> c <> 59 /\ c <> 61 /\ c <> 44)
       /\ forall t, v = Some t -> blen t <= 256 /\ forall c, In c t -> is_control c = false.

(** what stands between quotes: a backslash takes the next character with it *)
Inductive body : str -> Prop :=
| y_nil : body []
| y_char : forall c t, c <> 34 -> c <> 92 -> body t -> body (c :: t)
| y_pair : forall c t, body t -> body (92 :: c :: t).
(** all quotes are closed, and none of [no] stands outside them *)
Inductive settled (no : str) : str -> Prop :=
| s_nil : settled no []
| s_char : forall c s, c <> 34 -> ~ In c no -> settled no s -> settled no (c :: s)
| s_quoted : forall t s, body t -> settled no s -> settled no (34 :: t ++ 34 :: s).

(** the mechanism's name stands for it, parameters hold together, and a "q" is a number *)
Definition tidy {F} (ops : q_ops F) (e : entry) : Prop :=
  mech_parse (mech_text (e_mech e)) = Some (e_mech e) /\ settled (lit ",;") (mech_text (e_mech e))
  /\ forall n v, In (n, v) (e_params e) ->
       settled (lit ",;=") n
       /\ forall t, v = Some t -> settled (lit ",;") t /\ trim t = t /\ (lower n = lit "q" -> q_read ops t <> None).

(** [gt] ranks the numbers: of two, at most one is above the other, and if one is above
    another then every third is below the one or above the other *)
Definition ranks {F} (gt : F -> F -> bool) : Prop :=
  (forall a b, gt a b = true -> gt b a = false) /\ (forall a b c, gt a c = true -> gt a b = true \/ gt b c = true).
(** the client's entry for the mechanism of [s]: the first of them *)
Definition answers (client : list entry) (s c : entry) : Prop :=
  exists a b, client = a ++ c :: b /\ e_mech c = e_mech s /\ forall x, In x a -> e_mech x <> e_mech s.
(** neither is above the other *)
Definition same_rank {F} (gt : F -> F -> bool) (a b : F) : bool := negb (gt a b) && negb (gt b a).
