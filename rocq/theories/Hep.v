(** Model of reading the Call-ID for captures: crates/sip-hep/src/headers.rs.
    Simplification: positions in the buffer are replaced by what is left of it; the two
    scans (to the end of the line, over its CR and LF) become one split at the first LF. *)
From Coq Require Import NArith Bool String List.
Import ListNotations.
From Verif Require Import Base Text.
Open Scope N_scope.
Open Scope list_scope.

(** headers.rs:50-58 [starts_with_ci] *)
Fixpoint starts_with_ci (b p : list N) : bool :=
  match p, b with
  | [], _ => true
  | _ :: _, [] => false
  | y :: p', x :: b' => (lower_c x =? lower_c y) && starts_with_ci b' p'
  end.
(** headers.rs:60-71 [match_call_id] *)
Definition match_call_id (line : list N) : option (list N) :=
  if starts_with_ci line (lit "Call-ID:") then Some (skipn 8 line)
  else if starts_with_ci line (lit "i:") then Some (skipn 2 line)
  else None.
(** headers.rs:103-113 [trim_ascii] *)
Definition sp_tab (c : N) : bool := (c =? 32) || (c =? 9).
Definition sp_tab_cr (c : N) : bool := (c =? 32) || (c =? 9) || (c =? 13).
Definition trim_ascii (s : list N) : list N := trim_end_by sp_tab_cr (trim_start_by sp_tab s).
(** headers.rs:81-85: the CR before the LF is not part of the line *)
Definition without_cr (l : list N) : list N :=
  match rev l with c :: r => if c =? 13 then rev r else l | [] => l end.
(** headers.rs:23-47 [extract_call_id], with 73-101 *)
Fixpoint extract (fuel : nat) (payload : list N) : option str :=
  match fuel with
  | O => None
  | S f =>
      match split_once 10 payload with
      | None => None
      | Some (l, rest) =>
          match without_cr l with
          | [] => None
          | line => match match_call_id line with
                    | Some v => from_utf8 (trim_ascii v)
                    | None => extract f rest
                    end
          end
      end
  end.
Definition extract_call_id (payload : list N) : option str := extract (S (length payload)) payload.
