(** Vocabulary: the wire form of names (RFC 1035, RFC 3361), ENUM domains (RFC 3761). *)
From Coq Require Import NArith Bool String List.
Import ListNotations.
From Verif Require Import Base Text AnyUri Dhcp.
Open Scope N_scope.
Open Scope list_scope.

(** a label: one to sixty-three bytes *)
Definition label_ok (l : list N) : Prop := (1 <= length l <= 63)%nat.
(** a name on the wire: each label after its length, then a zero *)
Definition wire_name (labels : list (list N)) : list N := flat_map (fun l => N.of_nat (length l) :: l) labels ++ [0].
Definition name_ok (labels : list (list N)) : Prop := labels <> [] /\ Forall label_ok labels.
(** the labels of a name written with dots *)
Definition labels_of (name : str) : list (list N) := map utf8 (split_on 46 name).
(** a name that can be put on the wire *)
Definition domain_name (n : str) : Prop := is_str n = true /\ Forall label_ok (labels_of n).
Definition address_bytes (x : N * N * N * N) : list N := let '(a, b, c, d) := x in [a; b; c; d].
Definition ipv4_server (x : N * N * N * N) : server := let '(a, b, c, d) := x in Ipv4 a b c d.
(** [s] has no unescaped [c]: a backslash takes the next character with it *)
Fixpoint unbroken (c : N) (s : str) {struct s} : Prop :=
  match s with
  | [] => True
  | x :: r => if x =? 92 then match r with [] => False | _ :: r' => unbroken c r' end else x <> c /\ unbroken c r
  end.
(** [a] is to be preferred to [b], or as good *)
Definition as_good (a b : enum_rr) : Prop := en_order a < en_order b \/ (en_order a = en_order b /\ en_pref a <= en_pref b).
Definition better (a b : enum_rr) : Prop := en_order a < en_order b \/ (en_order a = en_order b /\ en_pref a < en_pref b).
