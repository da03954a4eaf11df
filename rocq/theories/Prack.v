(** Model of reliable provisional responses: the PRACK validator
    (crates/sip-dialog/src/prack_validator.rs), the RSeq and RAck header values
    (crates/sip-core/src/rseq.rs) and the RSeq counter
    (crates/sip-dialog/src/lib.rs:1744-1807). *)
From Coq Require Import Arith NArith Bool String List.
Import ListNotations.
From Verif Require Import Base Headers Method Msg Dialog.
Open Scope N_scope.
Open Scope list_scope.

(** prack_validator.rs:18-20 *)
Definition MAX_PENDING : nat := 10.
Definition PRACK_CLEANUP_INTERVAL : N := 300 * NS.
Definition PRACK_TIMEOUT : N := 300 * NS.

(** prack_validator.rs:23-41 [parse_method]: [to_uppercase] is modelled for
    ASCII (no other character maps into these words) *)
Definition parse_std_method (s : str) : option method :=
  find (fun m => str_eqb (upper s) (method_str m)) standard_methods.

(** prack_validator.rs:45-54 [RAck] *)
Record rack := mkRack { ra_rseq : N; ra_cseq : N; ra_method : method }.
(** prack_validator.rs:61-83 [RAck::parse] *)
Definition rack_parse (v : str) : option rack :=
  match split_ws v with
  | [a; b; c] =>
      match parse_uint u32_max a, parse_uint u32_max b, parse_std_method c with
      | Some r, Some q, Some m => Some (mkRack r q m)
      | _, _, _ => None
      end
  | _ => None
  end.
(** prack_validator.rs:86-88 [RAck::format] *)
Definition rack_print (r : rack) : str :=
  print_N (ra_rseq r) ++ lit " " ++ print_N (ra_cseq r) ++ lit " " ++ method_str (ra_method r).

(** prack_validator.rs:98-116 [PendingReliable] *)
Record pend := mkPend { pe_rseq : N; pe_cseq : N; pe_method : method; pe_code : N;
                        pe_pracked : bool; pe_created : N }.
(** prack_validator.rs:119-124 [PrackValidator] *)
Record pval := mkPv { pv_pending : list (str * list pend); pv_last : list (str * N) }.
Definition pv_empty : pval := mkPv [] [].
Definition pv_list (v : pval) (dlg : str) : list pend :=
  match lookup str_eqb dlg (pv_pending v) with Some l => l | None => [] end.
(** replace the list of a dialog that has one *)
Definition pv_update (v : pval) (dlg : str) (f : list pend -> list pend) : pval :=
  match lookup str_eqb dlg (pv_pending v) with
  | Some l => mkPv (insert str_eqb dlg (f l) (pv_pending v)) (pv_last v)
  | None => v
  end.
(** prack_validator.rs:151-154 the sweep inside [cleanup_pending] *)
Definition pv_sweep (v : pval) (dlg : str) (now : N) : pval :=
  pv_update v dlg (filter (fun p => negb (pe_pracked p) && (now - pe_created p <=? PRACK_TIMEOUT))).
(** prack_validator.rs:135-155 [cleanup_pending] *)
Definition pv_cleanup (v : pval) (dlg : str) (now : N) : pval :=
  match lookup str_eqb dlg (pv_last v) with
  | Some last => if PRACK_CLEANUP_INTERVAL <=? now - last
                 then pv_sweep (mkPv (pv_pending v) (insert str_eqb dlg now (pv_last v))) dlg now else v
  | None => pv_sweep (mkPv (pv_pending v) (insert str_eqb dlg now (pv_last v))) dlg now
  end.
(** prack_validator.rs:182-188: the part of [register_reliable_provisional]
    under the entry lock *)
Definition pv_push (v : pval) (dlg : str) (p : pend) : pval :=
  let l := pv_list v dlg in
  let l' := if (MAX_PENDING <=? length l)%nat then skipn (length l + 1 - MAX_PENDING) l else l in
  mkPv (insert str_eqb dlg (l' ++ [p]) (pv_pending v)) (pv_last v).
(** first pending entry with the given RSeq, replaced *)
Fixpoint mark_first (rseq : N) (l : list pend) : list pend :=
  match l with
  | [] => []
  | p :: r => if pe_rseq p =? rseq
              then mkPend (pe_rseq p) (pe_cseq p) (pe_method p) (pe_code p) true (pe_created p) :: r
              else p :: mark_first rseq r
  end.
(** prack_validator.rs:203-266 [validate_prack] after the cleanup *)
Definition pv_check (v : pval) (dlg : str) (hs : headers) : pval * option rack :=
  match hget (lit "RAck") hs with
  | None => (v, None)
  | Some t =>
      match rack_parse t with
      | None => (v, None)
      | Some r =>
          match lookup str_eqb dlg (pv_pending v) with
          | None => (v, None)
          | Some l =>
              match find (fun p => pe_rseq p =? ra_rseq r) l with
              | None => (v, None)
              | Some p =>
                  if negb (pe_cseq p =? ra_cseq r) then (v, None)
                  else if negb (method_eqb (pe_method p) (ra_method r)) then (v, None)
                  else if pe_pracked p then (v, None)
                  else (mkPv (insert str_eqb dlg (mark_first (ra_rseq r) l) (pv_pending v)) (pv_last v), Some r)
              end
          end
      end
  end.
(** prack_validator.rs:269-279 [is_pracked] *)
Definition pv_is_pracked (v : pval) (dlg : str) (rseq : N) : bool :=
  match find (fun p => pe_rseq p =? rseq) (pv_list v dlg) with Some p => pe_pracked p | None => false end.
(** prack_validator.rs:282-293 [get_pending] after the cleanup *)
Definition pv_get_pending (v : pval) (dlg : str) : list (N * N) :=
  map (fun p => (pe_rseq p, pe_code p)) (filter (fun p => negb (pe_pracked p)) (pv_list v dlg)).
(** prack_validator.rs:296-299 [remove_dialog] *)
Definition pv_remove (v : pval) (dlg : str) : pval :=
  mkPv (remove_key str_eqb dlg (pv_pending v)) (remove_key str_eqb dlg (pv_last v)).
(** prack_validator.rs:302-306 [remove_pracked] *)
Definition pv_remove_pracked (v : pval) (dlg : str) (rseq : N) : pval :=
  pv_update v dlg (filter (fun p => negb (pe_rseq p =? rseq) || negb (pe_pracked p))).

(** The atomic steps of the validator.  Each public call is a cleanup followed
    by one of the others; several callers may interleave their steps in any
    way, and a sweep may come later than the decision to make it. *)
Inductive pv_op :=
| PCleanup (dlg : str) (now : N)
| PSweep (dlg : str) (now : N)
| PPush (dlg : str) (rseq cseq : N) (m : method) (code created : N)
| PCheck (dlg : str) (hs : headers)
| PRemoveDialog (dlg : str)
| PRemovePracked (dlg : str) (rseq : N).
Definition pv_step (v : pval) (o : pv_op) : pval :=
  match o with
  | PCleanup d now => pv_cleanup v d now
  | PSweep d now => pv_sweep v d now
  | PPush d r c m code t => pv_push v d (mkPend r c m code false t)
  | PCheck d hs => fst (pv_check v d hs)
  | PRemoveDialog d => pv_remove v d
  | PRemovePracked d r => pv_remove_pracked v d r
  end.
Definition pv_run (v : pval) (ops : list pv_op) : pval := fold_left pv_step ops v.

(** ** crates/sip-core/src/rseq.rs *)
(** rseq.rs:319-330 [validate_sequence] *)
Definition seq_ok (n : N) : bool := negb (n =? 0) && (n <=? 2147483647).
Definition RSEQ_MAX_INPUT : N := 128.
(** rseq.rs:113-116 [RSeqHeader::new] *)
Definition rseq_new (n : N) : option N := if seq_ok n then Some n else None.
(** rseq.rs:137-139 [next] *)
Definition rseq_next (n : N) : option N := rseq_new (N.min u32_max (n + 1)).
(** rseq.rs:153-167 [RSeqHeader::parse] *)
Definition rseq_parse (s : str) : option N :=
  if RSEQ_MAX_INPUT <? blen s then None
  else match parse_uint u32_max (trim s) with Some n => rseq_new n | None => None end.
(** rseq.rs:170-174 Display *)
Definition rseq_print (n : N) : str := print_N n.
(** rseq.rs:233-243 [RAckHeader::new] *)
Definition rackh_new (r c : N) (m : method) : option rack :=
  if seq_ok r && seq_ok c then Some (mkRack r c m) else None.
(** rseq.rs:276-305 [RAckHeader::parse] *)
Definition rackh_parse (s : str) : option rack :=
  if RSEQ_MAX_INPUT <? blen s then None
  else match split_ws s with
       | [a; b; c] =>
           match parse_uint u32_max a, parse_uint u32_max b, method_from_token c with
           | Some r, Some q, Ok m => rackh_new r q m
           | _, _, _ => None
           end
       | _ => None
       end.

(** ** lib.rs:1744-1807 [RSeqManager]; [rnd] is the random 32-bit number *)
Definition rseq_mgr := list (dialog_id * N).
(** lib.rs:1744-1749 [random_initial_rseq] *)
Definition initial_rseq (rnd : N) : N := N.max 1 (rnd mod 2147483648).
(** lib.rs:1780-1786 [next_rseq] *)
Definition next_rseq (rnd : N) (id : dialog_id) (m : rseq_mgr) : rseq_mgr * N :=
  let n := match lookup did_eqb id m with
           | Some x => N.min u32_max (x + 1)
           | None => initial_rseq rnd
           end in
  (insert did_eqb id n m, n).
(** lib.rs:1789-1791 [current_rseq], 1794-1796 [remove] *)
Definition current_rseq (id : dialog_id) (m : rseq_mgr) : option N := lookup did_eqb id m.
Inductive rs_op := RNext (rnd : N) (id : dialog_id) | RRemove (id : dialog_id).
Definition rs_step (m : rseq_mgr) (o : rs_op) : rseq_mgr :=
  match o with
  | RNext rnd id => fst (next_rseq rnd id m)
  | RRemove id => remove_key did_eqb id m
  end.
