(** Vocabulary for property C178. *)
From Coq Require Import NArith Bool String List.
Import ListNotations.
From Verif Require Import Base Text Uri AnyUri Msg PIdentSpec Referred.
Open Scope N_scope.
Open Scope list_scope.

(** headers the API can build *)
Inductive rf_built : referred -> Prop :=
| rb_new : forall d t h, rf_new d t = Some h -> rf_built h
| rb_cid : forall h c h', rf_built h -> rf_with_cid h c = Some h' -> rf_built h'
| rb_add : forall h n v h', rf_built h -> rf_add h n v = Some h' -> rf_built h'.
Definition no_controls (s : str) : Prop := forall c, In c s -> 32 <= c /\ c <> 127.
(** the limits *)
Definition rf_limits (h : referred) : Prop :=
  (forall n, rf_name h = Some n -> blen n <= 256 /\ no_controls n)
  /\ (forall c, rf_cid h = Some c -> c <> [] /\ blen c <= 256 /\ no_controls c)
  /\ (List.length (rf_params h) <= 20)%nat /\ NoDup (map fst (rf_params h))
  /\ forall k v, In (k, v) (rf_params h) -> k <> [] /\ blen k <= 64 /\ no_controls k /\ lower k = k /\ blen v <= 256 /\ no_controls v.
(** what survives being written: an address that is read as itself, a name without quotation
    marks, a Content-ID without semicolons, parameters without separators and not named cid *)
Definition rf_clean (h : referred) : Prop :=
  (parse_any (any_text (rf_uri h)) = Some (rf_uri h) /\ without (lit """<>") (any_text (rf_uri h)))
  /\ (forall n, rf_name h = Some n -> without (lit """") n)
  /\ (forall c, rf_cid h = Some c -> without (lit ";") c)
  /\ forall k v, In (k, v) (rf_params h) -> trim k = k /\ without (lit "=;") k /\ k <> lit "cid" /\ trim v = v /\ without (lit ";") v /\ (forall x, v <> 34 :: x ++ [34]).
