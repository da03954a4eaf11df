(** MIME types: what the interface can build and what a reader should see
    (specification only). *)
From Coq Require Import NArith Bool String List.
Import ListNotations.
From Verif Require Import Base Text Mime.
Open Scope N_scope.
Open Scope list_scope.

(** the types that a caller can build *)
Inductive built : mime -> Prop :=
| b_new : forall t s m, mime_new t s = Some m -> built m
| b_add : forall m n v m', built m -> add_param m n v = Some m' -> built m'.

(** the characters of a token *)
Definition token_char (c : N) : Prop :=
  (48 <= c <= 57) \/ (65 <= c <= 90) \/ (97 <= c <= 122) \/ In c (lit "-.!%*_+`'~").
(** a token of at most [n] characters *)
Definition token (n : N) (s : str) : Prop := s <> [] /\ (forall c, In c s -> token_char c) /\ N.of_nat (List.length s) <= n.
Definition no_capitals (s : str) : Prop := forall c, In c s -> ~ (65 <= c <= 90).
(** no control characters *)
Definition printable (s : str) : Prop := forall c, In c s -> 32 <= c /\ c <> 127.
(** within the limits *)
Definition within (m : mime) : Prop :=
  (token 64 (m_type m) /\ no_capitals (m_type m)) /\ (token 64 (m_sub m) /\ no_capitals (m_sub m))
  /\ (List.length (m_params m) <= 20)%nat /\ sorted_keys (m_params m)
  /\ forall n v, In (n, v) (m_params m) -> (token 64 n /\ no_capitals n) /\ printable v /\ blen v <= 256.

(** [w] with some characters escaped, quotes and backslashes always *)
Inductive escaped : str -> str -> Prop :=
| e_nil : escaped [] []
| e_plain : forall c w t, c <> 34 -> c <> 92 -> escaped w t -> escaped (c :: w) (c :: t)
| e_esc : forall c w t, escaped w t -> escaped (c :: w) (92 :: c :: t).
(** [v] is a way of writing the value [w] *)
Definition writes (v w : str) : Prop :=
  (v = w /\ w <> [] /\ forall c, In c w -> token_char c) \/ (exists t, v = 34 :: t ++ [34] /\ escaped w t).
