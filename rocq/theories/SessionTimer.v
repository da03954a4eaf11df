(** Model of session timers (crates/sip-dialog/src/session_timer_manager.rs).
    Durations and times are in nanoseconds. *)
From Coq Require Import Arith NArith Bool String List.
Import ListNotations.
From Verif Require Import Base Headers Method Msg Dialog.
Open Scope N_scope.
Open Scope list_scope.

(** session_timer_manager.rs:277-288 [validate_session_expires];
    [MIN_SESSION_EXPIRES] is 90 s (line 55) *)
Definition tm_validate (se : N) (min_se : option N) : result N N :=
  let m := match min_se with Some m => m | None => 90 * NS end in
  if se <? m then Err m else Ok se.
(** session_timer_manager.rs:293-295 [calculate_refresh_time] *)
Definition refresh_time (se : N) : N := se / 2.
(** session_timer_manager.rs:341-372 [negotiate_session_expires] *)
Definition negotiate (requested local_min : N) (remote_min pref : option N) : result N N :=
  let absolute_min := match remote_min with Some r => N.max local_min r | None => local_min end in
  if requested <? absolute_min then Err absolute_min
  else match pref with
       | Some p => let n := N.max p absolute_min in if n <? requested then Ok n else Ok requested
       | None => Ok requested
       end.
(** session_timer_manager.rs:391-399 [determine_refresher_role] *)
Definition refresher_role (param : option str) (is_uac : bool) : bool :=
  match param with
  | Some p => if str_eqb p (lit "uac") then is_uac
              else if str_eqb p (lit "uas") then negb is_uac
              else if str_eqb p (lit "UAC") then is_uac
              else if str_eqb p (lit "UAS") then negb is_uac
              else is_uac
  | None => is_uac
  end.

(** ** The timer manager (session_timer_manager.rs:86-263) *)
(** line 51 *)
Definition MAX_SESSION_TIMERS : N := 10000.
(** Where the spawned task of lines 141-179 is: not polled yet, in the first
    [select!] with its deadline, in the second, or between sending
    [SessionExpired] and removing the entry (lines 169-172). *)
Inductive stage := SNew | SWaitRefresh (deadline : N) | SWaitExpire (deadline : N) | SRemove.
Record stask := mkTask { st_gen : N; st_dlg : dialog_id; st_e : N; st_ref : bool; st_stage : stage }.
(** [ss_table] models [tasks]: expiry time and the identity of the cancellation
    channel, for which the number of the task that holds its receiving end
    stands.  A task is cancelled (its [recv] is ready: a message was sent or
    the sender dropped) exactly if its channel is no longer in the table. *)
Record sts := mkSts { ss_now : N; ss_table : list (dialog_id * (N * N)); ss_tasks : list stask; ss_next : N }.
Definition sts_init : sts := mkSts 0 [] [] 0.
Inductive sevent :=
| EvStarted (d : dialog_id) (e : N) (r : bool) (* [start_timer] made a timer *)
| EvRefused (d : dialog_id)                    (* [start_timer] returned at the limit *)
| EvStopped (d : dialog_id)                    (* [stop_timer] *)
| EvRefresh (d : dialog_id)                    (* [RefreshNeeded] was sent *)
| EvExpired (d : dialog_id).                   (* [SessionExpired] was sent *)
(** Atomic actions.  [start_timer] is [AStop] then [AInsert]; a task step is
    one arm of a [select!] (tokio picks any ready arm) or the removal.  The
    limit check and the insertion of lines 120-132 are one action here. *)
Inductive saction :=
| ATick (n : N)
| AStop (d : dialog_id)
| AInsert (d : dialog_id) (e : N) (r : bool)
| APoll (g : N)      (* first poll, or the sleep arm, or the removal *)
| ACancel (g : N).   (* the cancellation arm *)
Definition find_task (g : N) (l : list stask) : option stask := find (fun t => st_gen t =? g) l.
Definition put_task (t : stask) (l : list stask) : list stask :=
  map (fun u => if st_gen u =? st_gen t then t else u) l.
Definition drop_task (g : N) (l : list stask) : list stask := filter (fun u => negb (st_gen u =? g)) l.
Definition current (s : sts) (t : stask) : bool :=
  match lookup did_eqb (st_dlg t) (ss_table s) with Some (_, g) => g =? st_gen t | None => false end.
Definition set_stage (t : stask) (g : stage) : stask := mkTask (st_gen t) (st_dlg t) (st_e t) (st_ref t) g.
(** [None]: the action cannot happen in this state *)
Definition sstep (s : sts) (a : saction) : option (sts * list sevent) :=
  match a with
  | ATick n => Some (mkSts (ss_now s + n) (ss_table s) (ss_tasks s) (ss_next s), [])
  | AStop d => (* 187-194 *)
      Some (mkSts (ss_now s) (remove_key did_eqb d (ss_table s)) (ss_tasks s) (ss_next s), [EvStopped d])
  | AInsert d e r => (* 120-139 *)
      if MAX_SESSION_TIMERS <=? llen (ss_table s) then Some (s, [EvRefused d])
      else Some (mkSts (ss_now s) (insert did_eqb d (ss_now s + e, ss_next s) (ss_table s))
                       (ss_tasks s ++ [mkTask (ss_next s) d e r SNew]) (ss_next s + 1), [EvStarted d e r])
  | APoll g =>
      match find_task g (ss_tasks s) with
      | None => None
      | Some t =>
          match st_stage t with
          | SNew => (* 141-147, 159-166: the first [sleep] starts *)
              let st := if st_ref t then SWaitRefresh (ss_now s + st_e t / 2) else SWaitExpire (ss_now s + st_e t) in
              Some (mkSts (ss_now s) (ss_table s) (put_task (set_stage t st) (ss_tasks s)) (ss_next s), [])
          | SWaitRefresh dl => (* 147-150, 160-166 *)
              if dl <=? ss_now s
              then Some (mkSts (ss_now s) (ss_table s)
                               (put_task (set_stage t (SWaitExpire (ss_now s + st_e t / 2))) (ss_tasks s)) (ss_next s),
                         [EvRefresh (st_dlg t)])
              else None
          | SWaitExpire dl => (* 167-169 *)
              if dl <=? ss_now s
              then Some (mkSts (ss_now s) (ss_table s) (put_task (set_stage t SRemove) (ss_tasks s)) (ss_next s),
                         [EvExpired (st_dlg t)])
              else None
          | SRemove => (* 172: by dialog, whichever timer is there *)
              Some (mkSts (ss_now s) (remove_key did_eqb (st_dlg t) (ss_table s)) (drop_task g (ss_tasks s)) (ss_next s), [])
          end
      end
  | ACancel g => (* 151-154, 174-176 *)
      match find_task g (ss_tasks s) with
      | None => None
      | Some t =>
          match st_stage t with
          | SWaitRefresh _ | SWaitExpire _ =>
              if current s t then None
              else Some (mkSts (ss_now s) (ss_table s) (drop_task g (ss_tasks s)) (ss_next s), [])
          | _ => None
          end
      end
  end.
(** 210-212 [has_timer], 215-224 [time_remaining] *)
Definition has_timer (s : sts) (d : dialog_id) : bool :=
  match lookup did_eqb d (ss_table s) with Some _ => true | None => false end.
Definition time_remaining (s : sts) (d : dialog_id) : option N :=
  match lookup did_eqb d (ss_table s) with Some (x, _) => Some (x - ss_now s) | None => None end.

(** Executions: the state reached and the events with their times. *)
Inductive srun (ok : sts -> saction -> Prop) : sts -> list (N * sevent) -> Prop :=
| srun_init : srun ok sts_init []
| srun_step : forall s tr a s' evs, srun ok s tr -> ok s a -> sstep s a = Some (s', evs) ->
    srun ok s' (tr ++ map (fun e => (ss_now s, e)) evs).
(** any schedule *)
Definition any_schedule (s : sts) (a : saction) : Prop := True.
(** Prompt schedules: time does not pass the deadline of a cancelled task
    before that task is polled, and a dialog's timer is stopped or restarted
    only while the running one is not yet due; intervals are at least 2 ns. *)
Definition not_due (now : N) (t : stask) : Prop :=
  match st_stage t with SNew => True | SWaitRefresh dl | SWaitExpire dl => now < dl | SRemove => False end.
Definition prompt (s : sts) (a : saction) : Prop :=
  match a with
  | ATick n => forall t, In t (ss_tasks s) -> current s t = false -> not_due (ss_now s + n) t
  | AStop d => forall t, In t (ss_tasks s) -> st_dlg t = d -> not_due (ss_now s) t
  | AInsert d e _ => 2 <= e /\ forall t, In t (ss_tasks s) -> st_dlg t = d -> not_due (ss_now s) t
  | _ => True
  end.
(** Schedules that also poll in time: time stands still while a task has yet to be
    polled for the first time or has its entry to remove, and does not pass a deadline. *)
Definition on_time (s : sts) (a : saction) : Prop :=
  prompt s a /\ match a with
  | ATick n => forall t, In t (ss_tasks s) -> match st_stage t with
      | SNew | SRemove => n = 0
      | SWaitRefresh dl | SWaitExpire dl => ss_now s + n <= dl
      end
  | _ => True
  end.
