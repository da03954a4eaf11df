(** Model of the token-bucket rate limiter (crates/sip-ratelimit/src/lib.rs).

    Time is nanoseconds.  Each public call is one atomic step that reads the
    clock once (the code reads it up to three times per call).  Tokens are
    [f64] in the code; they start as an integer not above 1_000_000, change by
    integers and are capped, so natural numbers represent them exactly.
    Metrics other than the check counter and the log throttle are dropped. *)
From Coq Require Import NArith Bool List.
Import ListNotations.
From Verif Require Import Base.
Open Scope N_scope.

Definition MS : N := 1000000.
Definition SEC : N := 1000000000.

(** lib.rs:55-62 *)
Definition CLEANUP_EVERY_CHECKS : N := 1024.
Definition MAX_KEY_LENGTH : N := 256.
Definition MAX_TRACKED_KEYS : N := 100000.
Definition MAX_REQUESTS_PER_WINDOW : N := 1000000.
Definition MAX_WINDOW_SECS : N := 86400.
Definition MAX_BURST_CAPACITY : N := 10000.

(** lib.rs:120-131 [validate_key] *)
Definition valid_key (k : str) : bool :=
  (blen k <=? MAX_KEY_LENGTH) && negb (existsb is_control k).

(** lib.rs:134-158 [RateLimitConfig] *)
Record rl_config := mkRl {
  rl_max : N; rl_window : N; rl_burst : N; rl_interval : N (* ms *);
  rl_per_refill : N; rl_idle : N (* s *); rl_enabled : bool }.

(** lib.rs:175-209 [RateLimitConfig::new]; [None] for the four errors *)
Definition rl_new (max_requests window_secs : N) : option rl_config :=
  if max_requests =? 0 then None
  else if window_secs =? 0 then None
  else if MAX_REQUESTS_PER_WINDOW <? max_requests then None
  else if MAX_WINDOW_SECS <? window_secs then None
  else let interval := (window_secs * 1000) / max_requests in
       Some (mkRl max_requests window_secs max_requests
                  (if interval =? 0 then 1 else interval) 1 300 true).
(** lib.rs:254-263 [with_burst_capacity] *)
Definition with_burst (n : N) (c : rl_config) : option rl_config :=
  if MAX_BURST_CAPACITY <? n then None
  else Some (mkRl (rl_max c) (rl_window c) n (rl_interval c) (rl_per_refill c) (rl_idle c) (rl_enabled c)).
(** lib.rs:266-269 [with_idle_timeout] *)
Definition with_idle (s : N) (c : rl_config) : rl_config :=
  mkRl (rl_max c) (rl_window c) (rl_burst c) (rl_interval c) (rl_per_refill c) s (rl_enabled c).
(** lib.rs:278-302: the shipped presets *)
Definition preset (max window burst idle : N) : option rl_config :=
  match rl_new max window with
  | Some c => match with_burst burst c with Some c' => Some (with_idle idle c') | None => None end
  | None => None
  end.
Definition auth_preset := preset 10 300 3 600.
Definition register_preset := preset 60 3600 10 300.
Definition invite_preset := preset 30 60 10 300.

(** lib.rs:321-334 [TokenBucket] *)
Record bucket := mkB { bk_tokens : N; bk_refill : N; bk_access : N; bk_blocked : N }.
(** lib.rs:337-346 *)
Definition bucket_new (c : rl_config) (now : N) : bucket := mkB (rl_burst c) now now 0.
(** lib.rs:363-381 [refill] *)
Definition refill (c : rl_config) (now : N) (b : bucket) : bucket :=
  if (rl_interval c =? 0) || (rl_per_refill c =? 0) || (rl_burst c =? 0) then b
  else
    let elapsed := now - bk_refill b in
    if rl_interval c * MS <=? elapsed then
      let intervals := (elapsed / MS) / rl_interval c in
      mkB (N.min (bk_tokens b + intervals * rl_per_refill c) (rl_burst c)) now (bk_access b) (bk_blocked b)
    else b.
(** lib.rs:349-360 [try_consume] *)
Definition try_consume (c : rl_config) (now : N) (b : bucket) : bucket * bool :=
  let b := refill c now b in
  if 1 <=? bk_tokens b then (mkB (bk_tokens b - 1) (bk_refill b) now (bk_blocked b), true)
  else (mkB (bk_tokens b) (bk_refill b) now (bk_blocked b + 1), false).
(** lib.rs:384-386 [is_idle] *)
Definition is_idle (c : rl_config) (now : N) (b : bucket) : bool :=
  rl_idle c * SEC <? now - bk_access b.

(** lib.rs:479-487 [RateLimiter] *)
Record limiter := mkL { lm_buckets : list (str * bucket); lm_checks : N }.
Definition limiter_init : limiter := mkL [] 0.

(** lib.rs:639-667 [cleanup_idle] *)
Definition cleanup (c : rl_config) (now : N) (s : limiter) : limiter :=
  if rl_enabled c then mkL (filter (fun p => negb (is_idle c now (snd p))) (lm_buckets s)) (lm_checks s)
  else s.

(** lib.rs:520-581 [check_rate_limit] *)
Definition check (c : rl_config) (now : N) (k : str) (s : limiter) : limiter * bool :=
  if negb (valid_key k) then (s, false)
  else
    let s1 := mkL (lm_buckets s) (lm_checks s + 1) in
    if negb (rl_enabled c) then (s1, true)
    else
      let s2 := if (lm_checks s + 1) mod CLEANUP_EVERY_CHECKS =? 0 then cleanup c now s1 else s1 in
      match lookup str_eqb k (lm_buckets s2) with
      | None =>
          if MAX_TRACKED_KEYS <=? llen (lm_buckets s2) then (s2, false)
          else let '(b, ok) := try_consume c now (bucket_new c now) in
               (mkL (insert str_eqb k b (lm_buckets s2)) (lm_checks s2), ok)
      | Some b0 =>
          let '(b, ok) := try_consume c now b0 in
          (mkL (insert str_eqb k b (lm_buckets s2)) (lm_checks s2), ok)
      end.

(** lib.rs:675-681 [remaining_tokens] *)
Definition remaining (c : rl_config) (now : N) (k : str) (s : limiter) : limiter * option N :=
  match lookup str_eqb k (lm_buckets s) with
  | None => (s, None)
  | Some b => let b' := refill c now b in
              (mkL (insert str_eqb k b' (lm_buckets s)) (lm_checks s), Some (bk_tokens b'))
  end.

(** the calls a program makes, with the time of each *)
Inductive rl_op :=
| RCheck (k : str) | RRemaining (k : str) | RReset (k : str) | RClear | RCleanup.

(** lib.rs:684-691 [reset], [clear] *)
Definition rl_step (c : rl_config) (s : limiter) (x : N * rl_op) : limiter * bool :=
  let '(now, o) := x in
  match o with
  | RCheck k => check c now k s
  | RRemaining k => (fst (remaining c now k s), false)
  | RReset k => (mkL (remove_key str_eqb k (lm_buckets s)) (lm_checks s), false)
  | RClear => (mkL [] (lm_checks s), false)
  | RCleanup => (cleanup c now s, false)
  end.

(** lib.rs:699-752 [get_limit_info]: remaining tokens and [retry_after] in
    whole seconds ([limit] and the wall-clock [reset_at] are dropped) *)
Definition limit_info (c : rl_config) (now : N) (k : str) (s : limiter) : limiter * option (N * N) :=
  if negb (rl_enabled c) then (s, None)
  else match lookup str_eqb k (lm_buckets s) with
  | None => (s, None)
  | Some b =>
      let b' := refill c now b in
      let s' := mkL (insert str_eqb k b' (lm_buckets s)) (lm_checks s) in
      if (rl_interval c =? 0) || (rl_per_refill c =? 0) || (rl_burst c =? 0)
      then (s', Some (bk_tokens b', 0))
      else
        let ms := if bk_tokens b' <? rl_burst c
                  then (* ceil(needed / per refill) refills *)
                       (rl_burst c - bk_tokens b' + rl_per_refill c - 1) / rl_per_refill c * rl_interval c
                  else 0 in
        (s', Some (bk_tokens b', ms / 1000))
  end.
