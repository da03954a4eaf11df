(** Specification vocabulary for reliable provisional responses. *)
From Coq Require Import Arith NArith Bool String List.
Import ListNotations.
From Verif Require Import Base Headers Method Msg Dialog Prack.
Open Scope N_scope.
Open Scope list_scope.

Definition rack_eqb (a b : rack) : bool :=
  (ra_rseq a =? ra_rseq b) && (ra_cseq a =? ra_cseq b) && method_eqb (ra_method a) (ra_method b).
(** the reliable provisionals registered in a history: the dialog and what
    identifies the response *)
Definition registered (ops : list pv_op) : list (str * rack) :=
  flat_map (fun o => match o with PPush d r c m _ _ => [(d, mkRack r c m)] | _ => [] end) ops.
(** the PRACKs accepted in it *)
Fixpoint acked (v : pval) (ops : list pv_op) : list (str * rack) :=
  match ops with
  | [] => []
  | o :: r =>
      match o with
      | PCheck d hs => match snd (pv_check v d hs) with Some x => [(d, x)] | None => [] end
      | _ => []
      end ++ acked (pv_step v o) r
  end.
(** how often a response occurs in such a list *)
Definition count (d : str) (x : rack) (l : list (str * rack)) : N :=
  llen (filter (fun e => str_eqb (fst e) d && rack_eqb (snd e) x) l).
(** the part of a history that concerns one dialog, and the number of
    registrations in it *)
Definition pushes (d : str) (ops : list pv_op) : N :=
  llen (filter (fun e => str_eqb (fst e) d) (registered ops)).
(** the latest time occurring in cleanups of a dialog *)
Definition sweeps_before (d : str) (limit : N) (ops : list pv_op) : Prop :=
  forall now, In (PCleanup d now) ops \/ In (PSweep d now) ops -> now <= limit.

(** the numbers handed out for a dialog over a history of the RSeq counter *)
Fixpoint rs_outs (id : dialog_id) (m : rseq_mgr) (ops : list rs_op) : list N :=
  match ops with
  | [] => []
  | o :: r => match o with
              | RNext rnd id' => if did_eqb id' id then [snd (next_rseq rnd id' m)] else []
              | RRemove _ => []
              end ++ rs_outs id (rs_step m o) r
  end.
