(** What a Replaces header (RFC 3891) says (specification only). *)
From Coq Require Import NArith Bool String List.
Import ListNotations.
From Verif Require Import Base Replaces.
Open Scope N_scope.
Open Scope list_scope.

(** ** The written form *)
Definition spaces (s : str) : Prop := forall c, In c s -> is_ws c = true.
(** not empty, no blanks at the ends, no semicolon *)
Definition atom (s : str) : Prop :=
  s <> [] /\ ~ In 59 s /\ (forall c r, s = c :: r -> is_ws c = false) /\ (forall r c, s = r ++ [c] -> is_ws c = false).
(** what one parameter says *)
Inductive saying := SaysTo (v : str) | SaysFrom (v : str) | SaysEarly.
Inductive written : str -> saying -> Prop :=
| written_to : forall a n b c v d, spaces a -> spaces b -> spaces c -> spaces d -> lower n = lit "to-tag" -> atom v ->
    written (a ++ n ++ b ++ [61] ++ c ++ v ++ d) (SaysTo v)
| written_from : forall a n b c v d, spaces a -> spaces b -> spaces c -> spaces d -> lower n = lit "from-tag" -> atom v ->
    written (a ++ n ++ b ++ [61] ++ c ++ v ++ d) (SaysFrom v)
| written_early : forall a w d, spaces a -> spaces d -> lower w = lit "early-only" -> written (a ++ w ++ d) SaysEarly.
Definition tos (l : list saying) : list str := flat_map (fun x => match x with SaysTo v => [v] | _ => [] end) l.
Definition froms (l : list saying) : list str := flat_map (fun x => match x with SaysFrom v => [v] | _ => [] end) l.
(** no control characters and not too long *)
Definition sound_text (mx : N) (s : str) : Prop := blen s <= mx /\ forall c, In c s -> 32 <= c /\ c <> 127.

(** the header names the dialog and survives being written *)
Definition clean_replaces (h : replaces) : Prop := atom (rp_call h) /\ atom (rp_to h) /\ atom (rp_from h).
