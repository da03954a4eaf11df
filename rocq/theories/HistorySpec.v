(** History-Info and Geolocation: what a reader should report (specification only).  The
    parts of a header value are those between the commas that stand outside quotation
    marks, without the white space round them and without blank ones: [split_quoted_commas]
    of Auth.v; what address a part holds is [parse_name_addr] of AnyUri.v. *)
From Coq Require Import NArith Bool String List.
Import ListNotations.
From Verif Require Import Base Text Uri AnyUri Auth History.
Open Scope N_scope.
Open Scope list_scope.

(** [ps]: the parts of all the values, none of which has more than [k] *)
Definition parts_of (k : N) (vs : list str) (ps : list str) : Prop :=
  exists pss, Forall2 (fun v l => split_quoted_commas k v = Some l) vs pss /\ ps = concat pss.
Definition letter (c : N) : Prop := 97 <= c <= 122 \/ 65 <= c <= 90 \/ 48 <= c <= 57 \/ In c (lit "-.!%*_+`'~").
Definition good_name (s : str) : Prop := s <> [] /\ blen s <= 64 /\ forall c, In c s -> letter c.
Definition good_value (s : str) : Prop := blen s <= 256 /\ forall c, In c s -> letter c.
(** parameters that may stand in an entry *)
Definition good_params (m : params) : Prop :=
  (List.length m <= 20)%nat /\ forall n v, In (n, v) m -> good_name n /\ match v with Some t => good_value t | None => True end.
(** the entry that stands for a part *)
Definition tells (p : str) (e : entry) : Prop := exists na, parse_name_addr p = Some na /\ e_uri e = na_uri na /\ e_params e = na_ps na.
(** headers that a caller can build from given entries *)
Inductive history_built : list entry -> Prop :=
| hb_new : forall es l, history_new es = Some l -> history_built l
| hb_single : forall e, history_built [e]
| hb_push : forall l e l', history_built l -> history_push l e = Some l' -> history_built l'.
(** [l] is what is left of [m] after leaving some out *)
Inductive part_of {A : Type} : list A -> list A -> Prop :=
| po_nil : part_of [] []
| po_keep : forall x l m, part_of l m -> part_of (x :: l) (x :: m)
| po_skip : forall x l m, part_of l m -> part_of l (x :: m).
