(** Vocabulary in which the transaction properties are stated: observations on
    output traces, the back-off sequence, classes of events and the set of
    armed timers.  Nothing here refers to a machine's internal fields. *)
From Coq Require Import NArith Bool List.
Import ListNotations.
From Verif Require Import Base Headers Fsm.
Open Scope N_scope.

(** ** Observations on output traces (specification vocabulary) *)
Definition transmits (l : list action) : list str :=
  flat_map (fun a => match a with Transmit b => [b] | _ => [] end) l.
Definition schedules (t : timer) (l : list action) : list N :=
  flat_map (fun a => match a with
                     | Schedule t' d => if timer_eqb t t' then [d] else []
                     | _ => [] end) l.
Definition delivers (l : list action) : list response :=
  flat_map (fun a => match a with Deliver r => [r] | _ => [] end) l.
Definition acks (l : list action) : list (response * bool) :=
  flat_map (fun a => match a with GenerateAck r b => [(r, b)] | _ => [] end) l.
Definition terminates (l : list action) : nat :=
  length (filter (fun a => match a with Terminate => true | _ => false end) l).
Definition panics (l : list action) : bool :=
  existsb (fun a => match a with Panic => true | _ => false end) l.

(** The timers a runtime holds armed: [Schedule] arms, [Cancel] disarms. *)
Definition arm1 (armed : list timer) (a : action) : list timer :=
  match a with
  | Schedule t _ => t :: armed
  | Cancel t => filter (fun x => negb (timer_eqb t x)) armed
  | _ => armed
  end.
Definition arm (armed : list timer) (l : list action) : list timer :=
  fold_left arm1 l armed.
Definition disarm (t : timer) (armed : list timer) : list timer :=
  filter (fun x => negb (timer_eqb t x)) armed.

(** ** Back-off specification: the k-th wait *)
Definition backoff (t1 t2 : N) (k : nat) : N :=
  match k with O => t1 | _ => N.min (t1 * 2 ^ N.of_nat k) t2 end.

(** the events of a history before the first one satisfying [p] *)
Fixpoint take_until {A} (p : A -> bool) (l : list A) : list A :=
  match l with
  | [] => []
  | x :: r => if p x then [] else x :: take_until p r
  end.

(** ** Client INVITE vocabulary *)
Definition ci_is_send (e : ci_event) : bool := match e with CiSend _ => true | _ => false end.
Definition ci_is_a (e : ci_event) : bool := match e with CiTimer TmA => true | _ => false end.
(** events after which the INVITE must no longer be repeated *)
Definition ci_stops (e : ci_event) : bool :=
  match e with
  | CiProv _ | CiFinal _ | CiTransportError => true
  | CiTimer TmB => true
  | _ => false
  end.

(** armed timers along a run: an expiry disarms its timer first *)
Definition ci_fired (e : ci_event) (armed : list timer) : list timer :=
  match e with CiTimer t => disarm t armed | _ => armed end.
Fixpoint ci_armed (armed : list timer) (s : ci) (es : list ci_event) : list timer :=
  match es with
  | [] => armed
  | e :: r => ci_armed (arm (ci_fired e armed) (snd (ci_step s e))) (fst (ci_step s e)) r
  end.

(** ** Client non-INVITE vocabulary *)
Definition cn_is_send (e : cn_event) : bool := match e with CnSend _ => true | _ => false end.
Definition cn_is_e (e : cn_event) : bool := match e with CnTimer TmE => true | _ => false end.
Definition cn_stops (e : cn_event) : bool :=
  match e with
  | CnFinal _ | CnTransportError => true
  | CnTimer TmF => true
  | _ => false
  end.

(** finals handed to the user *)
Definition cn_finals (o : list (list action)) (es : list cn_event) : list response :=
  flat_map (fun p => match fst p with CnFinal _ => delivers (snd p) | _ => [] end) (combine es o).

(** the final response that should reach the user: the first one not
    preceded by a time-out or transport error *)
Fixpoint first_final (es : list cn_event) : list response :=
  match es with
  | [] => []
  | CnFinal r :: _ => [r]
  | e :: rest => if cn_stops e then [] else first_final rest
  end.

Definition cn_fired (e : cn_event) (armed : list timer) : list timer :=
  match e with CnTimer t => disarm t armed | _ => armed end.
Fixpoint cn_armed (armed : list timer) (s : cn) (es : list cn_event) : list timer :=
  match es with
  | [] => armed
  | e :: r => cn_armed (arm (cn_fired e armed) (snd (cn_step s e))) (fst (cn_step s e)) r
  end.

(** ** Server INVITE vocabulary *)
Definition si_is_final (e : si_event) : bool := match e with SiFinal _ => true | _ => false end.
Definition si_is_retr (e : si_event) : bool := match e with SiRetransmit => true | _ => false end.
Definition si_is_g (e : si_event) : bool := match e with SiTimer TmG => true | _ => false end.
Definition si_stops (e : si_event) : bool :=
  match e with SiAck | SiTransportError => true | SiTimer TmH => true | _ => false end.

Definition si_fired (e : si_event) (armed : list timer) : list timer :=
  match e with SiTimer t => disarm t armed | _ => armed end.
Fixpoint si_armed (armed : list timer) (s : si) (es : list si_event) : list timer :=
  match es with
  | [] => armed
  | e :: r => si_armed (arm (si_fired e armed) (snd (si_step s e))) (fst (si_step s e)) r
  end.

(** ** Server non-INVITE vocabulary *)
(** responses the user submitted, up to and including the first final *)
Fixpoint sn_sent (es : list sn_event) : list str :=
  match es with
  | [] => []
  | SnProv r :: rest => rs_wire r :: sn_sent rest
  | SnFinal r :: _ => [rs_wire r]
  | _ :: rest => sn_sent rest
  end.
Definition sn_is_error (e : sn_event) : bool := match e with SnTransportError => true | _ => false end.
Definition sn_is_retr (e : sn_event) : bool := match e with SnRetransmit => true | _ => false end.
Definition si_is_error (e : si_event) : bool := match e with SiTransportError => true | _ => false end.
(** what is put on the wire by events other than request retransmissions *)
Definition sn_own (es : list sn_event) (o : list (list action)) : list str :=
  flat_map (fun p => if sn_is_retr (fst p) then [] else transmits (snd p)) (combine es o).
