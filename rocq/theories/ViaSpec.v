(** Vocabulary for the properties of Via headers and token lists. *)
From Coq Require Import NArith Bool String List.
Import ListNotations.
From Verif Require Import Base Text Uri Via.
Open Scope N_scope.
Open Scope list_scope.

(** white space only *)
Definition blank (s : str) : Prop := forall c, In c s -> is_ws c = true.
(** no white space at either end *)
Definition bare (s : str) : Prop :=
  (forall c r, s = c :: r -> is_ws c = false) /\ (forall c r, s = r ++ [c] -> is_ws c = false).
(** a non-empty RFC 3261 token of at most [n] bytes *)
Definition token (n : N) (s : str) : Prop := s <> [] /\ blen s <= n /\ forall c, In c s -> uri_token_char c = true.
(** a decimal port number between 1 and 65535, written with digits only *)
Definition port_text (p : str) : Prop := p <> [] /\ all_digits p = true /\ 1 <= digits_value p <= 65535.
(** "host", "host:port", "[v6]" or "[v6]:port" *)
Definition host_port (s : str) : Prop :=
  exists h p, s = h ++ p
  /\ ((h <> [] /\ forall c, In c h -> via_host_char c = true)
      \/ exists a, h = lit "[" ++ a ++ lit "]" /\ a <> [] /\ forall c, In c a -> v6_char c = true)
  /\ (p = [] \/ exists q, p = lit ":" ++ q /\ port_text q).
(** what every Via value satisfies *)
Definition sound_via (v : via) : Prop :=
  token 32 (w_transport v)
  /\ host_port (w_sent_by v) /\ blen (w_sent_by v) <= 256
  /\ llen (w_params v) <= 20
  /\ NoDup (map fst (w_params v))
  /\ forall k x, In (k, x) (w_params v) ->
       token 64 k /\ (forall c, In c k -> is_upper c = false)
       /\ forall y, x = Some y -> blen y <= 256 /\ forall c, In c y -> is_control c = false.
(** the text [seg] between two semicolons says that parameter [k] is [x] *)
Definition says (seg k : str) (x : option str) : Prop :=
  (x = None /\ k = trim seg /\ k <> [] /\ ~ In 61 k)
  \/ exists a b, trim seg = a ++ lit "=" ++ b /\ ~ In 61 a /\ k = trim a /\ x = Some (trim b).
(** a value that means the same after printing: no semicolon, no white space at the ends *)
Definition plain (x : option str) : Prop := forall y, x = Some y -> ~ In 59 y /\ bare y.
Definition op_plain (o : via_op) : Prop := match o with VWith _ x | VSet _ x => plain x end.

(** the text of an IP address: non-empty, at most 64 printable ASCII characters, no
    semicolon and no bracket *)
Definition address_text (s : str) : Prop :=
  s <> [] /\ llen s <= 64 /\ forall c, In c s -> 33 <= c <= 126 /\ c <> 59 /\ c <> 91 /\ c <> 93.
(** the sent-by names the host with address [ip], with or without a port *)
Definition sent_from (sent_by ip : str) : Prop :=
  exists p, (p = [] \/ exists q, p = lit ":" ++ q /\ port_text q)
            /\ ((sent_by = ip ++ p /\ ~ In 58 ip) \/ sent_by = lit "[" ++ ip ++ lit "]" ++ p).

(** a list of token lists operations *)
Inductive tl_start := TFrom (ts : list str) | TParse (s : str).
Definition tl_build (s : tl_start) (adds : list str) : option (list str) :=
  match match s with TFrom ts => tokens_from ts | TParse t => tokens_parse t end with
  | Some l => fold_opt tokens_add adds l
  | None => None
  end.
