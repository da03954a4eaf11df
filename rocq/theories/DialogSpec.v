(** Specification vocabulary for dialogs. *)
From Coq Require Import NArith Bool String List.
Import ListNotations.
From Verif Require Import Base Headers Method Text Uri Msg Dialog.
Open Scope N_scope.
Open Scope list_scope.

Definition is_ack (r : req) : Prop := method_str (q_method r) = lit "ACK".
Definition is_ackb (r : req) : bool := str_eqb (method_str (q_method r)) (lit "ACK").

(** the CSeq numbers of the requests other than ACK that a dialog accepts
    while it goes through [ops], in order *)
Fixpoint accepted (d : dialog) (ops : list dlg_op) : list N :=
  match ops with
  | [] => []
  | o :: r =>
      match o with
      | ORequest q =>
          match snd (update_from_request d q), parse_cseq_number (q_headers q) with
          | None, Some n => if is_ackb q then [] else [n]
          | _, _ => []
          end
      | _ => []
      end ++ accepted (dlg_step d o) r
  end.
(** the CSeq numbers it hands out for its own requests, in order *)
Fixpoint handed (d : dialog) (ops : list dlg_op) : list N :=
  match ops with
  | [] => []
  | o :: r => match o with ONext => [snd (next_local_cseq d)] | _ => [] end ++ handed (dlg_step d o) r
  end.

(** the text of a route in a Record-Route header, and a header value listing
    several of them *)
Definition route_text (u : sip_uri) : str := lit "<" ++ u_raw u ++ lit ">".
Definition route_value (us : list sip_uri) : str := join (lit ", ") (map route_text us).
(** a URI whose text can stand between angle brackets *)
Definition clean_route (u : sip_uri) : Prop :=
  parse_uri (u_raw u) = Some u /\ trim (u_raw u) = u_raw u
  /\ ~ In 34 (u_raw u) /\ ~ In 60 (u_raw u) /\ ~ In 62 (u_raw u).

(** the number of early dialogs of a Call-ID in a table *)
Definition early_count (call : str) (m : dmap) : N :=
  llen (filter (fun e => dstate_eqb (d_state (snd e)) Early && str_eqb (di_call (fst e)) call) m).
