(** Watcher information: what the interface can build and what a reader should see
    (specification only). *)
From Coq Require Import NArith Bool String List.
Import ListNotations.
From Verif Require Import Base AnyUri Winfo.
Open Scope N_scope.
Open Scope list_scope.

(** watchers, lists and documents that a caller can build; versions and times are u32 *)
Inductive watcher_built : watcher -> Prop :=
| wb_new : forall i s e w, watcher_new i s e = Some w -> watcher_built w
| wb_uri : forall w u w', watcher_built w -> with_uri w u = Some w' -> watcher_built w'
| wb_name : forall w n w', watcher_built w -> with_name w n = Some w' -> watcher_built w'
| wb_expires : forall w n, watcher_built w -> n <= u32_max -> watcher_built (with_expires w n)
| wb_since : forall w n, watcher_built w -> n <= u32_max -> watcher_built (with_since w n).
Inductive list_built : wlist -> Prop :=
| lb_new : forall r p l, list_new r p = Some l -> list_built l
| lb_add : forall l w l', list_built l -> watcher_built w -> add_watcher l w = Some l' -> list_built l'.
Inductive built : winfo -> Prop :=
| ib_new : forall v s d, v <= u32_max -> info_new v s = Some d -> built d
| ib_add : forall d l d', built d -> list_built l -> add_list d l = Some d' -> built d'.

(** the limits *)
Definition control (c : N) : Prop := c < 32 \/ 127 <= c <= 159.
Definition line (n : N) (s : str) : Prop := blen s <= n /\ forall c, In c s -> ~ control c.
Definition address (s : str) : Prop := s <> [] /\ line 512 s /\ parse_any s <> None.
Definition letter (c : N) : Prop := 97 <= c <= 122 \/ 65 <= c <= 90 \/ 48 <= c <= 57 \/ In c (lit "-.!%*_+`'~").
Definition good_watcher (w : watcher) : Prop :=
  (w_id w <> [] /\ line 128 (w_id w)) /\ (forall u, w_uri w = Some u -> address u)
  /\ (forall n, w_name w = Some n -> blen n <= 256 /\ forall c, In c n -> control c -> c = 9)
  /\ (forall n, w_expires w = Some n -> n <= u32_max) /\ (forall n, w_since w = Some n -> n <= u32_max).
Definition good_list (l : wlist) : Prop :=
  address (l_resource l) /\ (l_package l <> [] /\ blen (l_package l) <= 64 /\ forall c, In c (l_package l) -> letter c)
  /\ (List.length (l_watchers l) <= 1000)%nat /\ (forall w, In w (l_watchers l) -> good_watcher w).
Definition within (d : winfo) : Prop :=
  i_version d <= u32_max /\ (i_state d = lit "full" \/ i_state d = lit "partial")
  /\ (List.length (i_lists d) <= 100)%nat /\ (forall l, In l (i_lists d) -> good_list l).

(** [v] looks as if it held the attribute [n]: white space, the name, perhaps more white
    space and an equals sign *)
Definition decoy (n v : str) : Prop :=
  exists a w b c, v = a ++ w :: n ++ b ++ 61 :: c /\ is_ws w = true /\ (forall x, In x b -> is_ws x = true).
(** no value looks as if it held an attribute that is written behind it, and no address
    has white space at either end *)
Definition honest_watcher (w : watcher) : Prop :=
  (forall n, In n [lit "status"; lit "event"; lit "display-name"; lit "expiration"; lit "duration-subscribed"] -> ~ decoy n (w_id w))
  /\ (forall v n, w_name w = Some v -> In n [lit "expiration"; lit "duration-subscribed"] -> ~ decoy n v)
  /\ (forall u, w_uri w = Some u -> trim u = u).
Definition honest (d : winfo) : Prop :=
  forall l, In l (i_lists d) -> ~ decoy (lit "package") (l_resource l) /\ forall w, In w (l_watchers l) -> honest_watcher w.
