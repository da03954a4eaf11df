(** Vocabulary for the statements about the rate limiter. *)
From Coq Require Import NArith Bool List.
Import ListNotations.
From Verif Require Import Base RateLimit.
Open Scope N_scope.

(** the state after a history and the verdict of every call *)
Fixpoint rl_run (c : rl_config) (s : limiter) (h : list (N * rl_op)) : limiter * list bool :=
  match h with
  | [] => (s, [])
  | x :: r => let '(s1, v) := rl_step c s x in
              let '(s2, vs) := rl_run c s1 r in (s2, v :: vs)
  end.

(** the clock never goes back *)
Fixpoint chrono (from : N) (h : list (N * rl_op)) : Prop :=
  match h with [] => True | (t, _) :: r => from <= t /\ chrono t r end.
(** every call of the history happens in the interval *)
Definition within (lo hi : N) (h : list (N * rl_op)) : Prop := Forall (fun x => lo <= fst x <= hi) h.

(** requests of [k] admitted / the verdicts given to [k], in order *)
Definition is_check (k : str) (o : rl_op) : bool :=
  match o with RCheck k' => str_eqb k k' | _ => false end.
Fixpoint verdicts (k : str) (h : list (N * rl_op)) (vs : list bool) : list bool :=
  match h, vs with
  | (_, o) :: r, v :: vs' => if is_check k o then v :: verdicts k r vs' else verdicts k r vs'
  | _, _ => []
  end.
Fixpoint count_true (l : list bool) : N :=
  match l with [] => 0 | b :: r => (if b then 1 else 0) + count_true r end.
Definition admitted (k : str) (c : rl_config) (s : limiter) (h : list (N * rl_op)) : N :=
  count_true (verdicts k h (snd (rl_run c s h))).

(** [k] is not reset by hand *)
Definition unreset (k : str) (h : list (N * rl_op)) : Prop :=
  Forall (fun x => snd x <> RReset k /\ snd x <> RClear) h.

(** the calls concerning [k] *)
Definition mine (k : str) (x : N * rl_op) : bool :=
  match snd x with
  | RCheck k' | RRemaining k' | RReset k' => str_eqb k k'
  | RClear => true
  | RCleanup => false
  end.
(** keys asked for *)
Definition asked (h : list (N * rl_op)) (k : str) : Prop := exists t, In (t, RCheck k) h.
(** at most [MAX_TRACKED_KEYS] distinct keys are asked for *)
Definition few_keys (h : list (N * rl_op)) : Prop :=
  exists ks, llen ks <= MAX_TRACKED_KEYS /\ forall k, asked h k -> In k ks.
(** [k] is not queried by [remaining_tokens] *)
Definition unqueried (k : str) (h : list (N * rl_op)) : Prop := forall t, ~ In (t, RRemaining k) h.

(** the idle timeout is long enough to refill a bucket from empty (with no
    burst the limiter refuses everything and nothing needs to be refilled) *)
Definition idle_covers (c : rl_config) : Prop :=
  rl_interval c <> 0 /\ rl_per_refill c <> 0 /\ rl_burst c <> 0
  /\ rl_burst c * rl_interval c * MS <= rl_idle c * SEC.
