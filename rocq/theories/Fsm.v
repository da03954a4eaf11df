(** Model of the four RFC 3261 transaction machines
    (crates/sip-transaction/src/fsm.rs) and of the transport-aware timer table
    (crates/sip-transaction/src/timers.rs). *)
From Coq Require Import NArith Bool List.
Import ListNotations.
From Verif Require Import Base Headers.
Open Scope N_scope.

(** ** Timers *)

(** timers.rs:77-84 [Transport] *)
Inductive transport := Udp | Tcp | Tls.
(** timers.rs:88-90 [Transport::is_reliable] *)
Definition is_reliable (t : transport) : bool :=
  match t with Tcp | Tls => true | Udp => false end.

(** crates/sip-transaction/src/lib.rs [TransactionTimer] *)
Inductive timer := TmT1 | TmT2 | TmT4 | TmA | TmB | TmC | TmD | TmE | TmF
                 | TmG | TmH | TmI | TmJ | TmK.
Definition timer_eqb (a b : timer) : bool :=
  match a, b with
  | TmT1, TmT1 | TmT2, TmT2 | TmT4, TmT4 | TmA, TmA | TmB, TmB | TmC, TmC
  | TmD, TmD | TmE, TmE | TmF, TmF | TmG, TmG | TmH, TmH | TmI, TmI
  | TmJ, TmJ | TmK, TmK => true
  | _, _ => false
  end.

(** Rust [Duration] in nanoseconds; [Duration::MAX] *)
Definition DURATION_MAX : N := 18446744073709551615 * 1000000000 + 999999999.
Definition secs (n : N) : N := n * 1000000000.
(** [Duration::saturating_mul] *)
Definition sat_mul (d k : N) : N := N.min (d * k) DURATION_MAX.

(** timers.rs:103-129 [TimerDefaults] and [TransportAwareTimers] *)
Record timers := mkTimers { tm_transport : transport; tm_t1 : N; tm_t2 : N; tm_t4 : N }.

(** timers.rs:168-257 [TransportAwareTimers::duration] *)
Definition duration (tm : timers) (t : timer) : N :=
  let rel := is_reliable (tm_transport tm) in
  match t with
  | TmT1 => tm_t1 tm
  | TmT2 => tm_t2 tm
  | TmT4 => tm_t4 tm
  | TmA | TmE | TmG => if rel then 0 else tm_t1 tm
  | TmB | TmF | TmH => sat_mul (tm_t1 tm) 64
  | TmD => if rel then 0 else secs 32
  | TmK | TmI => if rel then 0 else tm_t4 tm
  | TmJ => if rel then 0 else sat_mul (tm_t1 tm) 64
  | TmC => secs 180
  end.

(** ** Messages seen by the machines *)

(** A response as the machines see it: status code, headers, and the bytes
    [serialize_response] gives for it.  A request is only its serialised
    bytes ([serialize_request]). *)
Record response := mkResponse { rs_code : N; rs_headers : headers; rs_wire : str }.

Definition is_2xx (r : response) : bool := in_range 200 299 (rs_code r).

(** fsm.rs:410-427 [response_requires_prack] *)
Definition has_100rel (vals : list str) : bool :=
  existsb (fun v => existsb (fun tok => eq_ic (trim tok) (lit "100rel")) (split_on 44 v)) vals.
Definition response_requires_prack (r : response) : bool :=
  let hs := rs_headers r in
  if hcontains (lit "RSeq") hs then
    has_100rel (hget_all (lit "Require") hs)
    || has_100rel (hget_all (lit "Supported") hs)
    || negb (hcontains (lit "Require") hs)
  else false.

(** fsm.rs:302-380, 395-408: the action enums of the four machines, merged.
    [Panic] stands for the overflow panic of [Duration * 2]; the transport
    field of [Transmit] (always Udp) and the reason texts are dropped. *)
Inductive action :=
| Transmit (bytes : str)
| Deliver (r : response)
| ExpectPrack (r : response)
| GenerateAck (r : response) (is2xx : bool)
| Schedule (t : timer) (d : N)
| Cancel (t : timer)
| Terminate
| Panic.

(** [(interval * 2).min(t2)]: [Duration::mul] panics on overflow *)
Definition backoff_next (i t2 : N) : option N :=
  if i * 2 <=? DURATION_MAX then Some (N.min (i * 2) t2) else None.

Definition sched_nz (t : timer) (d : N) : list action :=
  if d =? 0 then [] else [Schedule t d].

(** ** Client INVITE (fsm.rs:461-662) *)
Inductive ci_state := CiCalling | CiProceeding | CiCompleted | CiConfirmed | CiTerminated.
Record ci := mkCi { ci_st : ci_state; ci_tm : timers; ci_a : N; ci_invite : option str }.
Inductive ci_event :=
| CiSend (w : str) | CiProv (r : response) | CiFinal (r : response)
| CiTimer (t : timer) | CiTransportError.

(** fsm.rs:477-485 *)
Definition ci_new (tm : timers) : ci := mkCi CiCalling tm (duration tm TmA) None.
Definition ci_set (s : ci) (st : ci_state) : ci := mkCi st (ci_tm s) (ci_a s) (ci_invite s).

(** fsm.rs:519-545 [handle_send_invite] *)
Definition ci_send (s : ci) (w : str) : ci * list action :=
  (mkCi CiCalling (ci_tm s) (ci_a s) (Some w),
   [Transmit w] ++ sched_nz TmA (duration (ci_tm s) TmA)
   ++ [Schedule TmB (duration (ci_tm s) TmB)]).

(** fsm.rs:547-557 [handle_provisional] *)
Definition ci_provisional (s : ci) (r : response) : ci * list action :=
  (ci_set s CiProceeding,
   [Cancel TmA; Deliver r] ++ (if response_requires_prack r then [ExpectPrack r] else [])).

(** fsm.rs:572-583 [handle_final_2xx] *)
Definition ci_final_2xx (s : ci) (r : response) : ci * list action :=
  (ci_set s CiTerminated,
   [Cancel TmA; Cancel TmB; Deliver r; GenerateAck r true]).

(** fsm.rs:585-607 [handle_final_non_2xx] *)
Definition ci_final_non2xx (s : ci) (r : response) : ci * list action :=
  (ci_set s CiCompleted,
   [Cancel TmA; Cancel TmB; Deliver r; GenerateAck r false]
   ++ match ci_st s with
      | CiCompleted => []
      | _ => [Schedule TmD (duration (ci_tm s) TmD)]
      end).

(** fsm.rs:559-570 [handle_final] *)
Definition ci_final (s : ci) (r : response) : ci * list action :=
  if is_2xx r then ci_final_2xx s r else ci_final_non2xx s r.

(** fsm.rs:609-636 [handle_timer_a] *)
Definition ci_timer_a (s : ci) : ci * list action :=
  if duration (ci_tm s) TmA =? 0 then (s, [])
  else match backoff_next (ci_a s) (duration (ci_tm s) TmT2) with
       | None => (s, [Panic])
       | Some a' =>
           let s' := mkCi (ci_st s) (ci_tm s) a' (ci_invite s) in
           match ci_invite s with
           | Some w => (s', [Transmit w; Schedule TmA a'])
           | None => (s', [])
           end
       end.

(** fsm.rs:488-517 [on_event], with [handle_timer_b] 638-649,
    [handle_timer_d] 651-654, [handle_transport_error] 656-661 *)
Definition ci_step (s : ci) (e : ci_event) : ci * list action :=
  match ci_st s, e with
  | CiCalling, CiSend w => ci_send s w
  | (CiCalling | CiProceeding), CiProv r => ci_provisional s r
  | (CiCalling | CiProceeding | CiCompleted), CiFinal r => ci_final s r
  | CiTerminated, CiFinal r => if is_2xx r then ci_final_2xx s r else (s, [])
  | CiCalling, CiTimer TmA => ci_timer_a s
  | (CiCalling | CiProceeding), CiTimer TmB => (ci_set s CiTerminated, [Cancel TmA; Terminate])
  | CiCompleted, CiTimer TmD => (ci_set s CiTerminated, [Cancel TmD])
  | _, CiTransportError => (ci_set s CiTerminated, [Terminate])
  | _, _ => (s, [])
  end.

(** ** Client non-INVITE (fsm.rs:446-458, 664-823) *)
Inductive cn_state := CnTrying | CnProceeding | CnCompleted | CnTerminated.
Record cn := mkCn { cn_st : cn_state; cn_tm : timers; cn_e : N; cn_request : option str }.
Inductive cn_event :=
| CnSend (w : str) | CnProv (r : response) | CnFinal (r : response)
| CnTimer (t : timer) | CnTransportError.

(** fsm.rs:666-674 *)
Definition cn_new (tm : timers) : cn := mkCn CnTrying tm (duration tm TmE) None.
Definition cn_set (s : cn) (st : cn_state) : cn := mkCn st (cn_tm s) (cn_e s) (cn_request s).

(** fsm.rs:711-737 [handle_initial_send] *)
Definition cn_send (s : cn) (w : str) : cn * list action :=
  (mkCn CnTrying (cn_tm s) (cn_e s) (Some w),
   [Transmit w] ++ sched_nz TmE (duration (cn_tm s) TmE)
   ++ [Schedule TmF (duration (cn_tm s) TmF)]).

(** fsm.rs:744-755 [handle_final] *)
Definition cn_final (s : cn) (r : response) : cn * list action :=
  (cn_set s CnCompleted,
   [Deliver r; Cancel TmE; Cancel TmF; Schedule TmK (duration (cn_tm s) TmK)]).

(** fsm.rs:757-784 [handle_timer_e] *)
Definition cn_timer_e (s : cn) : cn * list action :=
  if duration (cn_tm s) TmE =? 0 then (s, [])
  else match backoff_next (cn_e s) (duration (cn_tm s) TmT2) with
       | None => (s, [Panic])
       | Some e' =>
           let s' := mkCn (cn_st s) (cn_tm s) e' (cn_request s) in
           match cn_request s with
           | Some w => (s', [Transmit w; Schedule TmE e'])
           | None => (s', [])
           end
       end.

(** fsm.rs:677-709 [on_event], with [handle_provisional] 739-742,
    [handle_timer_f] 802-810, [handle_timer_k] 812-815,
    [handle_transport_error] 817-822 *)
Definition cn_step (s : cn) (e : cn_event) : cn * list action :=
  match cn_st s, e with
  | CnTrying, CnSend w => cn_send s w
  | (CnTrying | CnProceeding), CnProv r => (cn_set s CnProceeding, [Deliver r])
  | (CnTrying | CnProceeding), CnFinal r => cn_final s r
  | (CnTrying | CnProceeding), CnTimer TmE => cn_timer_e s
  | (CnTrying | CnProceeding), CnTimer TmF => (cn_set s CnTerminated, [Cancel TmE; Terminate])
  | CnCompleted, CnTimer TmK => (cn_set s CnTerminated, [Cancel TmK])
  | _, CnTransportError => (cn_set s CnTerminated, [Terminate])
  | _, _ => (s, [])
  end.

(** ** Server non-INVITE (fsm.rs:849-967) *)
Inductive sn_state := SnTrying | SnProceeding | SnCompleted | SnTerminated.
Record sn := mkSn { sn_st : sn_state; sn_tm : timers; sn_last : option str }.
(** [SnRetransmit] is a call of [on_retransmit] (895-908): the manager calls
    it when the same request arrives again. *)
Inductive sn_event :=
| SnRequest | SnProv (r : response) | SnFinal (r : response)
| SnTimer (t : timer) | SnAck | SnTransportError | SnRetransmit.

(** fsm.rs:862-868 *)
Definition sn_new (tm : timers) : sn := mkSn SnTrying tm None.
Definition sn_set (s : sn) (st : sn_state) : sn := mkSn st (sn_tm s) (sn_last s).

(** fsm.rs:895-908 [on_retransmit] *)
Definition sn_retransmit (s : sn) : list action :=
  match sn_st s with
  | SnProceeding | SnCompleted =>
      match sn_last s with Some b => [Transmit b] | None => [] end
  | _ => []
  end.

(** fsm.rs:871-893 [on_event] with handlers 910-966 *)
Definition sn_step (s : sn) (e : sn_event) : sn * list action :=
  match sn_st s, e with
  | _, SnRetransmit => (s, sn_retransmit s)
  | SnTrying, SnRequest => (sn_set s SnProceeding, [])
  | SnProceeding, SnProv r => (mkSn (sn_st s) (sn_tm s) (Some (rs_wire r)), [Transmit (rs_wire r)])
  | (SnTrying | SnProceeding), SnFinal r =>
      (mkSn SnCompleted (sn_tm s) (Some (rs_wire r)),
       [Transmit (rs_wire r); Schedule TmJ (duration (sn_tm s) TmJ)])
  | SnCompleted, SnAck => (sn_set s SnTerminated, [Cancel TmJ; Terminate])
  | SnCompleted, SnTimer TmJ => (sn_set s SnTerminated, [Cancel TmJ; Terminate])
  | _, SnTransportError => (sn_set s SnTerminated, [Terminate])
  | _, _ => (s, [])
  end.

(** ** Server INVITE (fsm.rs:984-1187) *)
Inductive si_state := SiProceeding | SiCompleted | SiConfirmed | SiTerminated.
Record si := mkSi { si_st : si_state; si_tm : timers; si_g : N;
                    si_last : option str; si_final : option str }.
Inductive si_event :=
| SiInvite | SiCancel | SiProv (r : response) | SiFinal (r : response)
| SiAck | SiTimer (t : timer) | SiTransportError | SiRetransmit.

(** fsm.rs:1001-1010 *)
Definition si_new (tm : timers) : si := mkSi SiProceeding tm (duration tm TmG) None None.
Definition si_set (s : si) (st : si_state) : si :=
  mkSi st (si_tm s) (si_g s) (si_last s) (si_final s).

(** fsm.rs:1044-1057 [on_retransmit] *)
Definition si_retransmit (s : si) : list action :=
  match si_st s with
  | SiProceeding | SiCompleted =>
      match si_last s with Some b => [Transmit b] | None => [] end
  | _ => []
  end.

(** fsm.rs:1073-1114 [send_final] *)
Definition si_send_final (s : si) (r : response) : si * list action :=
  let b := rs_wire r in
  if is_2xx r then
    (mkSi SiTerminated (si_tm s) (si_g s) (Some b) (si_final s), [Transmit b; Terminate])
  else
    let g := duration (si_tm s) TmG in
    (mkSi SiCompleted (si_tm s) g (Some b) (Some b),
     [Transmit b] ++ sched_nz TmG g ++ [Schedule TmH (duration (si_tm s) TmH)]).

(** fsm.rs:1131-1159 [handle_timer_g] *)
Definition si_timer_g (s : si) : si * list action :=
  if duration (si_tm s) TmG =? 0 then (s, [])
  else match si_final s with
       | None => (s, [])
       | Some b =>
           match backoff_next (si_g s) (duration (si_tm s) TmT2) with
           | None => (s, [Panic])
           | Some g' =>
               (mkSi (si_st s) (si_tm s) g' (si_last s) (si_final s),
                [Transmit b; Schedule TmG g'])
           end
       end.

(** fsm.rs:1013-1037 [on_event] with the remaining handlers 1039-1186 *)
Definition si_step (s : si) (e : si_event) : si * list action :=
  match si_st s, e with
  | _, SiRetransmit => (s, si_retransmit s)
  | SiProceeding, SiProv r =>
      (mkSi (si_st s) (si_tm s) (si_g s) (Some (rs_wire r)) (si_final s), [Transmit (rs_wire r)])
  | (SiProceeding | SiConfirmed | SiCompleted), SiFinal r => si_send_final s r
  | SiCompleted, SiAck =>
      (si_set s SiConfirmed,
       [Cancel TmG; Cancel TmH; Schedule TmI (duration (si_tm s) TmI)])
  | SiCompleted, SiTimer TmG => si_timer_g s
  | SiCompleted, SiTimer TmH => (si_set s SiTerminated, [Cancel TmG; Terminate])
  | SiConfirmed, SiTimer TmI => (si_set s SiTerminated, [Cancel TmI; Terminate])
  | _, SiTransportError => (si_set s SiTerminated, [Terminate])
  | _, _ => (s, [])
  end.

(** ** Running a machine on an event history *)
Section Run.
  Context {S E A : Type} (step : S -> E -> S * list A).
  (** final state and the outputs, one list per event *)
  Fixpoint run (s : S) (es : list E) : S * list (list A) :=
    match es with
    | [] => (s, [])
    | e :: r =>
        let '(s1, o) := step s e in
        let '(s2, os) := run s1 r in
        (s2, o :: os)
    end.
  Definition final_state (s : S) (es : list E) : S := fst (run s es).
  Definition outputs (s : S) (es : list E) : list A := concat (snd (run s es)).
End Run.
