(** What privacy a message has (specification only). *)
From Coq Require Import NArith Bool String List.
Import ListNotations.
From Verif Require Import Base Headers Privacy.
Open Scope N_scope.
Open Scope list_scope.

(** ** Names *)
Definition same_name (a b : str) : Prop := lower a = lower b.
(** the values of the headers of a name, in order *)
Inductive values (name : str) : headers -> list str -> Prop :=
| values_nil : values name [] []
| values_yes : forall n v hs l, same_name n name -> values name hs l -> values name ((n, v) :: hs) (v :: l)
| values_no : forall n v hs l, ~ same_name n name -> values name hs l -> values name ((n, v) :: hs) l.
(** headers that say who the sender is, and headers that say more about it *)
Definition identity_names : list str := [lit "From"; lit "Contact"; lit "P-Asserted-Identity"; lit "P-Preferred-Identity"].
Definition extra_names : list str :=
  [lit "Subject"; lit "Call-Info"; lit "Organization"; lit "User-Agent"; lit "Reply-To"; lit "In-Reply-To"; lit "Server"].

(** ** What the header asks for *)
Definition asks_identity (h : privacy) : Prop := In PId h \/ In PUser h.
Definition asks_headers (h : privacy) : Prop := In PHeader h \/ In PUser h.
(** what can be built: not empty, at most ten values, none only alone *)
Definition sensible (h : privacy) : Prop := h <> [] /\ (List.length h <= 10)%nat /\ (In PNone h -> h = [PNone]).

(** ** Addresses: the part before the header parameters *)
(** the inside of a quoted string *)
Inductive quoted : str -> Prop :=
| quoted_nil : quoted []
| quoted_char : forall c s, c <> 34 -> c <> 92 -> quoted s -> quoted (c :: s)
| quoted_pair : forall c s, quoted s -> quoted (92 :: c :: s).
(** plain text, quoted strings and URIs in angle brackets *)
Inductive address : str -> Prop :=
| address_nil : address []
| address_char : forall c s, c <> 34 -> c <> 60 -> c <> 59 -> address s -> address (c :: s)
| address_quoted : forall q s, quoted q -> address s -> address ([34] ++ q ++ [34] ++ s)
| address_uri : forall u s, (forall c, In c u -> c <> 34 /\ c <> 62) -> address s -> address ([60] ++ u ++ [62] ++ s).
(** header parameters: nothing, or a semicolon and something *)
Definition params (p : str) : Prop := p = [] \/ exists r, p = 59 :: r.
Definition anonymous : str := [34] ++ lit "Anonymous" ++ [34] ++ lit " <sip:anonymous@anonymous.invalid>".

(** what becomes of one identity header: some header parameters of the old
    value stay, and they are all that stays of an address *)
Definition veiled (v w : str) : Prop :=
  (exists a p, v = a ++ p /\ params p /\ w = anonymous ++ p) /\ forall a p, v = a ++ p -> address a -> params p -> w = anonymous ++ p.

(** no From or Contact to veil is longer than 1024 bytes *)
Definition veilable (hs : headers) : Prop := forall n v l, n = lit "From" \/ n = lit "Contact" -> values n hs (v :: l) -> blen v <= 1024.

(** one value of the header as it may be written *)
Inductive spelt : str -> privacy_value -> Prop :=
| spelt_as : forall a w b v, (forall c, In c (a ++ b) -> is_ws c = true) -> lower w = pv_text v -> spelt (a ++ w ++ b) v.
Inductive spelt_all : list str -> privacy -> Prop :=
| spelt_none : spelt_all [] []
| spelt_blank : forall s l h, (forall c, In c s -> is_ws c = true) -> spelt_all l h -> spelt_all (s :: l) h
| spelt_value : forall s v l h, spelt s v -> spelt_all l h -> spelt_all (s :: l) (v :: h).
