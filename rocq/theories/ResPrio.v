(** Model of Resource-Priority headers: crates/sip-core/src/resource_priority.rs.  Errors
    are [None]: which of them is reported is not modelled. *)
From Coq Require Import NArith Bool String List.
Import ListNotations.
From Verif Require Import Base Text.
Open Scope N_scope.
Open Scope list_scope.

(** resource_priority.rs:281-304 [validate_namespace], 306-329 [validate_priority]: the
    same checks with the same limit *)
Definition word_ok (s : str) : bool := negb (str_eqb s []) && (blen s <=? 64) && negb (existsb (fun c => is_ascii_control c || is_ws c) s).
(** 93-97 [ResourcePriorityValue] *)
Record rvalue := mkValue { v_space : str; v_priority : str }.
(** 105-116 [ResourcePriorityValue::new] *)
Definition value_new (n p : str) : option rvalue := if word_ok n && word_ok p then Some (mkValue n p) else None.
(** 139-147 [ResourcePriorityValue::parse] *)
Definition value_parse (s : str) : option rvalue := match split_once 46 (trim s) with Some (n, p) => value_new n p | None => None end.
(** 150-154 [Display] *)
Definition value_text (v : rvalue) : str := v_space v ++ lit "." ++ v_priority v.
(** 199-208 [add_value] of a header, which is its list of values (175-178) *)
Definition add_value (l : list rvalue) (v : rvalue) : option (list rvalue) := if 10 <=? llen l then None else Some (l ++ [v]).
(** 235-262 [ResourcePriorityHeader::parse] *)
Fixpoint read_parts (parts : list str) (l : list rvalue) : option (list rvalue) :=
  match parts with
  | [] => Some l
  | p :: r =>
      if str_eqb (trim p) [] then read_parts r l
      else if 10 <=? llen l then None
      else match value_parse (trim p) with Some v => read_parts r (l ++ [v]) | None => None end
  end.
Definition parse (s : str) : option (list rvalue) := if 512 <? blen s then None else read_parts (split_on 44 s) [].
(** 271-281 [Display] *)
Definition text (l : list rvalue) : str := join (lit ", ") (map value_text l).
