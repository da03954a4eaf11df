(** crates/sip-core/src/replaces.rs: the Replaces header (RFC 3891).  Errors are
    one value: which one it is is not modelled. *)
From Coq Require Import NArith Bool String List.
Import ListNotations.
From Verif Require Import Base.
Open Scope N_scope.
Open Scope list_scope.

(** 28-30 *)
Definition RP_MAX_CALL_ID : N := 256.
Definition RP_MAX_TAG : N := 128.
Definition RP_MAX_INPUT : N := 1024.
(** 117-122 [ReplacesHeader] *)
Record replaces := mkReplaces { rp_call : str; rp_to : str; rp_from : str; rp_early : bool }.
(** 356-377 [validate_call_id], 379-400 [validate_tag] *)
Definition rp_text (mx : N) (s : str) : bool :=
  negb (match s with [] => true | _ => false end) && (blen s <=? mx) && negb (existsb is_ascii_control s).
(** 147-165 [new], 186-189 [with_early_only] *)
Definition replaces_new (call to_tag from_tag : str) (early : bool) : option replaces :=
  if rp_text RP_MAX_CALL_ID call && rp_text RP_MAX_TAG to_tag && rp_text RP_MAX_TAG from_tag
  then Some (mkReplaces call to_tag from_tag early) else None.
(** 262-300: the loop over the parameters *)
Fixpoint rp_params (ps : list str) (to_tag from_tag : option str) (early : bool) : option (option str * option str * bool) :=
  match ps with
  | [] => Some (to_tag, from_tag, early)
  | p :: r =>
      if eq_ic p (lit "early-only") then rp_params r to_tag from_tag true
      else match split_once 61 p with
           | None => None
           | Some (k, v) =>
               let key := trim k in let value := trim v in
               if eq_ic key (lit "to-tag") then
                 if rp_text RP_MAX_TAG value then
                   match to_tag with Some _ => None | None => rp_params r (Some value) from_tag early end
                 else None
               else if eq_ic key (lit "from-tag") then
                 if rp_text RP_MAX_TAG value then
                   match from_tag with Some _ => None | None => rp_params r to_tag (Some value) early end
                 else None
               else None
           end
  end.
(** 238-316 [parse] *)
Definition replaces_parse (input : str) : option replaces :=
  if RP_MAX_INPUT <? blen input then None
  else match map trim (split_on 59 (trim input)) with
       | [] => None
       | call :: ps =>
           if rp_text RP_MAX_CALL_ID call then
             match rp_params ps None None false with
             | Some (Some t, Some f, e) => Some (mkReplaces call t f e)
             | _ => None
             end
           else None
       end.
(** 318-332 [fmt] *)
Definition replaces_print (h : replaces) : str :=
  rp_call h ++ lit ";to-tag=" ++ rp_to h ++ lit ";from-tag=" ++ rp_from h
  ++ (if rp_early h then lit ";early-only" else []).
