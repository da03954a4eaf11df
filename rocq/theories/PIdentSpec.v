(** Identities: what should survive writing and reading (specification only) *)
From Coq Require Import NArith Bool String List.
Import ListNotations.
From Verif Require Import Base Text TextFacts Uri AnyUri History HistorySpec PIdent.
Open Scope N_scope.
Open Scope list_scope.

Definition without (bad : str) (s : str) : Prop := forall c, In c s -> ~ In c bad.
(** identities that the constructors can build *)
Inductive pid_built : pident -> Prop :=
| pb_from : forall u, pid_built (pi_from u)
| pb_name : forall i n i', pid_built i -> pi_with_name i n = Some i' -> pid_built i'
| pb_add : forall i n v i', pid_built i -> pi_add i n v = Some i' -> pid_built i'.
(** what an address, a name and a parameter value must not contain to be written as they are *)
Definition clean_uri (u : any_uri) : Prop := parse_any (any_text u) = Some u /\ trim (any_text u) = any_text u /\ without (lit """<>") (any_text u).
Definition clean_name (n : str) : Prop := n <> [] /\ without (lit """") n.
Definition clean_value (v : str) : Prop := trim v = v /\ without (lit """<,;") v.
Definition clean (i : pident) : Prop :=
  clean_uri (pi_uri i) /\ (forall n, pi_name i = Some n -> clean_name n) /\ forall k v, In (k, Some v) (pi_params i) -> clean_value v.
(** the limits *)
Definition within_limits (i : pident) : Prop :=
  (List.length (pi_params i) <= 20)%nat
  /\ (forall n, pi_name i = Some n -> blen n <= 256 /\ forall c, In c n -> 32 <= c /\ c <> 127)
  /\ forall k v, In (k, v) (pi_params i) -> good_name k /\ lower k = k /\ match v with Some t => blen t <= 256 /\ forall c, In c t -> 32 <= c /\ c <> 127 | None => True end.
