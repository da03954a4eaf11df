(** Path and Service-Route: what a reader should report (specification only).  What
    address a part holds is [parse_name_addr] of AnyUri.v. *)
From Coq Require Import NArith Bool String List.
Import ListNotations.
From Verif Require Import Base Text Uri AnyUri PathRoute.
Open Scope N_scope.
Open Scope list_scope.

(** the text between two quotation marks: a backslash takes the next character with it *)
Inductive inside : str -> Prop :=
| in_nil : inside []
| in_char : forall c s, c <> 34 -> c <> 92 -> inside s -> inside (c :: s)
| in_escaped : forall c s, inside s -> inside (92 :: c :: s).
(** the text between two commas: commas only inside quotation marks, and these in pairs *)
Inductive piece : str -> Prop :=
| pc_nil : piece []
| pc_char : forall c s, c <> 34 -> c <> 44 -> piece s -> piece (c :: s)
| pc_quoted : forall b s, inside b -> piece s -> piece (34 :: b ++ 34 :: s).
(** [ps]: the pieces of [v], without the blanks round them and without blank ones *)
Definition pieces_of (v : str) (ps : list str) : Prop :=
  exists p raw, v = p ++ concat (map (cons 44) raw) /\ Forall piece (p :: raw) /\ ps = filter (fun t => negb (str_eqb t [])) (map trim (p :: raw)).
(** a header value with at most [k] pieces *)
Definition reads_as (k : nat) (v : str) (ps : list str) : Prop := pieces_of v ps /\ (List.length ps <= k)%nat.

(** the address has the parameter lr, either its own or that of its URI *)
Definition says_lr (r : name_addr) : Prop :=
  (exists v, In (lit "lr", v) (na_ps r)) \/ exists u v, na_uri r = ASip u /\ In (lit "lr", v) (u_params u).

(** headers that a caller can build from given routes *)
Inductive routes_built : routes -> Prop :=
| rb_new : forall l l', routes_new l = Some l' -> routes_built l'
| rb_single : forall u, routes_built (routes_single u)
| rb_uris : forall us l, routes_from_uris us = Some l -> routes_built l
| rb_add : forall l u l', routes_built l -> routes_add l u = Some l' -> routes_built l'
| rb_read : forall vs l, parse_routes vs = Some l -> routes_built l.

(** routes whose text has nothing that the reader takes for something else *)
Definition no_control (s : str) : Prop := forall c, In c s -> 32 <= c /\ c <> 127.
Definition plain_name (s : str) : Prop := blen s <= 256 /\ no_control s /\ ~ In 34 s /\ ~ In 92 s.
Definition plain_uri (u : any_uri) : Prop :=
  parse_any (any_text u) = Some u /\ match u with ASip s => u_headers s = [] | _ => True end
  /\ trim (any_text u) = any_text u /\ forall c, In c (any_text u) -> c <> 34 /\ c <> 44 /\ c <> 62.
Definition plain_key (k : str) : Prop :=
  k <> [] /\ blen k <= 64 /\ lower k = k /\ forall c, In c k -> 97 <= c <= 122 \/ 65 <= c <= 90 \/ 48 <= c <= 57 \/ In c (lit "-.!%*_+`'~").
Definition plain_value (v : str) : Prop := blen v <= 256 /\ no_control v /\ trim v = v /\ ~ In 34 v /\ ~ In 44 v /\ ~ In 59 v.
Definition plain_route (r : name_addr) : Prop :=
  match na_display r with Some d => plain_name d | None => True end
  /\ plain_uri (na_uri r)
  /\ sorted_keys (na_ps r) /\ (List.length (na_ps r) <= 64)%nat
  /\ forall k v, In (k, v) (na_ps r) -> plain_key k /\ match v with Some t => plain_value t | None => True end.
