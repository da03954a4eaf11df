(** Model of the Date header: crates/sip-core/src/date.rs.  The httpdate crate is an
    argument; times are nanoseconds since the epoch. *)
From Coq Require Import NArith ZArith Bool String List.
Import ListNotations.
From Verif Require Import Base Text.
Open Scope N_scope.
Open Scope list_scope.

(** [httpdate::parse_http_date], [httpdate::fmt_http_date] (which panics from the year 9999 on:
    not modelled) *)
Record http_ops := mkHttp { http_parse : str -> option Z; http_fmt : Z -> str }.
(** date.rs:46-50 [DateHeader] *)
Record date := mkDate { d_raw : str; d_time : option Z }.

(** 139-146 [VALID_DAYS], [VALID_MONTHS] *)
Definition DAYS : list str := map lit ["Mon"; "Tue"; "Wed"; "Thu"; "Fri"; "Sat"; "Sun"]%string.
Definition MONTHS : list str := map lit ["Jan"; "Feb"; "Mar"; "Apr"; "May"; "Jun"; "Jul"; "Aug"; "Sep"; "Oct"; "Nov"; "Dec"]%string.
Definition one_of (l : list str) (s : str) : bool := existsb (str_eqb s) l.
(** 180-189, 196-206, 214-227: [n] digits with a value between [lo] and [hi] *)
Definition number_ok (n mx lo hi : N) (s : str) : bool :=
  (blen s =? n) && forallb is_digit s && match parse_uint mx s with Some v => (lo <=? v) && (v <=? hi) | None => false end.
(** 209-227: hours, minutes and seconds *)
Definition time_ok (s : str) : bool :=
  match split_on 58 s with
  | [h; m; sec] => number_ok 2 u8_max 0 23 h && number_ok 2 u8_max 0 59 m && number_ok 2 u8_max 0 59 sec
  | _ => false
  end.
(** 161-235 [is_valid_date_format] *)
Definition date_ok (s : str) : bool :=
  match split_ws s with
  | d :: dd :: mon :: y :: t :: z :: _ =>
      ends_with [44] d && one_of DAYS (trim_end_by (N.eqb 44) d)
      && number_ok 2 u8_max 1 31 dd && one_of MONTHS mon && number_ok 4 u16_max 1970 2100 y && time_ok t
      && (2 <=? blen z) && forallb is_alpha z
  | _ => false
  end.
(** 67-94 [DateHeader::new] *)
Definition date_new (ops : http_ops) (s : str) : option date :=
  if (blen s <=? 128) && negb (existsb is_ascii_control s) && date_ok s then Some (mkDate s (http_parse ops s)) else None.
(** 97-105 [now] and 108-115 [from_timestamp] *)
Definition date_at (ops : http_ops) (t : Z) : date := mkDate (http_fmt ops t) (Some t).
(** 128-131 [is_past], 134-137 [is_future]: [duration_since] is an error if the other time is
    later *)
Definition is_past (d : date) (now : Z) : option bool :=
  match d_time d with Some t => if (t <=? now)%Z then Some true else None | None => None end.
Definition is_future (d : date) (now : Z) : option bool :=
  match d_time d with Some t => if (now <=? t)%Z then Some true else None | None => None end.
