(** Presence documents: what the interface can build and what a reader should see
    (specification only). *)
From Coq Require Import NArith Bool String List.
Import ListNotations.
From Verif Require Import Base Pidf CpimSpec.
Open Scope N_scope.
Open Scope list_scope.

(** tuples and documents that a caller can build *)
Inductive tuple_built : tuple -> Prop :=
| tb_new : forall i t, tuple_new i = Some t -> tuple_built t
| tb_status : forall t b, tuple_built t -> tuple_built (with_status t b)
| tb_contact : forall t c t', tuple_built t -> with_contact t c = Some t' -> tuple_built t'
| tb_note : forall t n t', tuple_built t -> with_note t n = Some t' -> tuple_built t'
| tb_time : forall t s t', tuple_built t -> with_time t s = Some t' -> tuple_built t'.
Inductive built : pidf -> Prop :=
| db_new : forall e d, pidf_new e = Some d -> built d
| db_tuple : forall d t d', built d -> tuple_built t -> add_tuple d t = Some d' -> built d'
| db_note : forall d n d', built d -> add_note d n = Some d' -> built d'.

(** within the limits *)
Definition good_tuple (t : tuple) : Prop :=
  (t_id t <> [] /\ clean 128 [] (t_id t)) /\ (forall c, t_contact t = Some c -> clean 512 [] c)
  /\ (List.length (t_notes t) <= 10)%nat /\ (forall n, In n (t_notes t) -> clean 512 [] n) /\ (forall s, t_time t = Some s -> clean 64 [] s).
Definition within (d : pidf) : Prop :=
  (d_entity d <> [] /\ clean 512 [] (d_entity d)) /\ (List.length (d_tuples d) <= 50)%nat /\ (forall t, In t (d_tuples d) -> good_tuple t)
  /\ (List.length (d_notes d) <= 20)%nat /\ (forall n, In n (d_notes d) -> clean 512 [] n).

(** the same but for white space round contacts, notes and timestamps *)
Definition opt_pared (o o' : option str) : Prop :=
  match o, o' with Some v, Some w => pared white v w | None, None => True | _, _ => False end.
Definition same_tuple (t t' : tuple) : Prop :=
  t_id t = t_id t' /\ t_status t = t_status t' /\ opt_pared (t_contact t) (t_contact t') /\ Forall2 (pared white) (t_notes t) (t_notes t') /\ opt_pared (t_time t) (t_time t').
Definition same_but_blanks (d d' : pidf) : Prop :=
  d_entity d = d_entity d' /\ Forall2 same_tuple (d_tuples d) (d_tuples d') /\ Forall2 (pared white) (d_notes d) (d_notes d').
(** no markup *)
Definition no_markup (s : str) : Prop := forall c, In c s -> c <> 60 /\ c <> 62 /\ c <> 34 /\ c <> 39.

(** the first place of [p] in [s] *)
Definition first_at (p s a b : str) : Prop := s = a ++ p ++ b /\ forall a' b', s = a' ++ p ++ b' -> (List.length a <= List.length a')%nat.
(** the status a word names, without regard to case and white space around it *)
Definition names_status (w : str) (b : basic) : Prop := lower (trim w) = match b with Open => lit "open" | Closed => lit "closed" end.
(** what a text stands for: the five named references count, others stay *)
Definition entities : list (str * N) := [(lit "lt", 60); (lit "gt", 62); (lit "amp", 38); (lit "quot", 34); (lit "apos", 39)].
Inductive stands : str -> str -> Prop :=
| st_end : stands [] []
| st_char : forall c s t, c <> 38 -> stands s t -> stands (c :: s) (c :: t)
| st_named : forall e x s t, In (e, x) entities -> stands s t -> stands (38 :: e ++ 59 :: s) (x :: t)
| st_other : forall e s t, ~ In 59 e -> (forall x, ~ In (e, x) entities) -> stands s t -> stands (38 :: e ++ 59 :: s) (38 :: e ++ 59 :: t)
| st_lone : forall s t, ~ In 59 s -> stands s t -> stands (38 :: s) (38 :: t).
