(** Message summaries: what the interface can build and what a reader should see
    (specification only). *)
From Coq Require Import NArith Bool String List.
Import ListNotations.
From Verif Require Import Base Msg Mwi CpimSpec.
Open Scope N_scope.
Open Scope list_scope.

(** message headers and summaries that a caller can build; the counts are u32 *)
Definition u32_counts (c : counts) : Prop := n_new c <= 4294967295 /\ n_old c <= 4294967295 /\ u_new c <= 4294967295 /\ u_old c <= 4294967295.
Inductive head_built : mheader -> Prop :=
| hb_new : head_built mheader_new
| hb_with : forall h f v h', head_built h -> with_field h f v = Some h' -> head_built h'.
Inductive built : summary -> Prop :=
| sb_new : forall w, built (summary_new w)
| sb_account : forall s a s', built s -> set_account s a = Some s' -> built s'
| sb_class : forall s k c s', built s -> u32_counts c -> add_class s k c = Some s' -> built s'
| sb_head : forall s h s', built s -> head_built h -> add_head s h = Some s' -> built s'.

(** in the order of the classes, none twice *)
Fixpoint in_order (l : list (kind * counts)) : Prop :=
  match l with [] => True | (k, c) :: r => (forall k' c', In (k', c') r -> rank k < rank k') /\ in_order r end.
(** within the limits *)
Definition within (s : summary) : Prop :=
  (forall a, s_account s = Some a -> clean 512 [] a)
  /\ in_order (s_classes s) /\ (forall k c, In (k, c) (s_classes s) -> u32_counts c)
  /\ (List.length (s_heads s) <= 50)%nat /\ (forall h f v, In h (s_heads s) -> field_of h f = Some v -> clean 1024 [] v).

(** the same but for white space round it *)
Definition opt_pared (o o' : option str) : Prop :=
  match o, o' with Some v, Some w => pared white v w | None, None => True | _, _ => False end.
(** [v] is the last value that the message headers give for [f] *)
Definition last_given (f : field) (hs : list mheader) (v : str) : Prop :=
  exists a h b, hs = a ++ h :: b /\ field_of h f = Some v /\ forall h', In h' b -> field_of h' f = None.
Definition gives_nothing (h : mheader) : Prop := forall f, field_of h f = None.
(** [h] holds, for every field, the last value given *)
Definition gathers (hs : list mheader) (h : mheader) : Prop :=
  forall f, (forall v, last_given f hs v -> exists w, field_of h f = Some w /\ pared white v w)
         /\ ((forall h', In h' hs -> field_of h' f = None) -> field_of h f = None).
(** what a text says about the status: the last line so named *)
Definition named_line (l : str) (name v : str) : Prop := exists n x, trim l = n ++ 58 :: x /\ ~ In 58 n /\ lower (trim n) = name /\ v = trim x.
(** the sum of numbers *)
Definition sum_of (l : list N) : N := fold_right N.add 0 l.
(** a line that gives the counts of a class *)
Definition counts_line (l : str) (k : kind) (c : counts) : Prop := exists v, named_line l (lower (kind_name k)) v /\ counts_of v = Some c.
