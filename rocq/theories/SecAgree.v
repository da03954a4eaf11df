(** Model of the security agreement headers: crates/sip-core/src/security.rs.  Errors
    are [None]: which of them is reported is not modelled.  The three header types
    (301-376, 369-461, 463-526) are the same list of entries with the same
    constructors, written here once. *)
From Coq Require Import NArith Bool String List.
Import ListNotations.
From Verif Require Import Base Text.
Open Scope N_scope.
Open Scope list_scope.

(** security.rs:12-16 *)
Definition MAX_MECHANISM : N := 64.
Definition MAX_NAME : N := 64.
Definition MAX_VALUE : N := 256.
Definition MAX_PARAMS : N := 20.
Definition MAX_ENTRIES : N := 10.

(** [f32]: reading a text that is a finite number from 0 to 1 (685-692
    [parse_q_value]), the test of 111-125 [validate_q_value], the text of 240-247
    ([{:.3}] without trailing zeros), multiplication, [>], and [total_cmp] as
    "greater"; the arithmetic itself is not modelled *)
Record q_ops (F : Type) := mkQ {
  q_read : str -> option F; q_valid : F -> bool; q_show : F -> str;
  q_mul : F -> F -> F; q_gt : F -> F -> bool; q_above : F -> F -> bool; q_default : F }.
Arguments q_read {F}. Arguments q_valid {F}. Arguments q_show {F}.
Arguments q_mul {F}. Arguments q_gt {F}. Arguments q_above {F}. Arguments q_default {F}.

(** 129-140 [SecurityMechanism] *)
Inductive mechanism := Tls | Digest | IpsecIke | IpsecMan | Other (s : str).
(** 178-181 [SecurityEntry]; params is a BTreeMap *)
Record entry := mkEntry { e_mech : mechanism; e_params : list (str * option str) }.

(** 45-66 [validate_mechanism_name] *)
Definition mech_ok (s : str) : bool :=
  negb (str_eqb s []) && (blen s <=? MAX_MECHANISM) && negb (existsb (fun c => is_control c || is_ws c) s).
(** 68-92 [validate_param_name] *)
Definition name_ok (s : str) : bool :=
  negb (str_eqb s []) && (blen s <=? MAX_NAME) && negb (existsb (fun c => is_control c || is_ws c || (c =? 59) || (c =? 61) || (c =? 44)) s).
(** 94-109 [validate_param_value] *)
Definition value_ok (s : str) : bool := (blen s <=? MAX_VALUE) && negb (existsb is_control s).

(** 144-152 [as_str] *)
Definition mech_text (m : mechanism) : str :=
  match m with
  | Tls => lit "tls" | Digest => lit "digest" | IpsecIke => lit "ipsec-ike" | IpsecMan => lit "ipsec-man"
  | Other s => s
  end.
(** [str::to_lowercase] as far as it yields ASCII: the Kelvin sign (8490) also becomes
    "k"; other characters outside ASCII stay outside it *)
Definition fold_case (s : str) : str := map (fun c => if c =? 8490 then 107 else lower_c c) s.
(** 155-165 [SecurityMechanism::parse] *)
Definition mech_parse (s : str) : option mechanism :=
  if mech_ok s then
    let l := fold_case s in
    Some (if str_eqb l (lit "tls") then Tls
          else if str_eqb l (lit "digest") then Digest
          else if str_eqb l (lit "ipsec-ike") then IpsecIke
          else if str_eqb l (lit "ipsec-man") then IpsecMan
          else Other s)
  else None.
(** derived [PartialEq] *)
Definition mech_eqb (a b : mechanism) : bool :=
  match a, b with
  | Tls, Tls | Digest, Digest | IpsecIke, IpsecIke | IpsecMan, IpsecMan => true
  | Other s, Other t => str_eqb s t
  | _, _ => false
  end.

(** 188-193 [SecurityEntry::new] *)
Definition entry_new (m : mechanism) : entry := mkEntry m [].
(** 206-223 [set_param] *)
Definition set_param (e : entry) (n : str) (v : option str) : option entry :=
  if MAX_PARAMS <=? llen (e_params e) then None
  else if name_ok n && match v with Some t => value_ok t | None => true end
       then Some (mkEntry (e_mech e) (bput n v (e_params e)))
       else None.
(** 226-231 [get_param] *)
Definition get_param (e : entry) (n : str) : option (option str) :=
  match find (fun p => eq_ic (fst p) n) (e_params e) with Some p => Some (snd p) | None => None end.
Section ops.
  Context {F : Type} (ops : q_ops F).
  (** 237-250 [set_preference] *)
  Definition set_preference (e : entry) (q : F) : option entry :=
    if q_valid ops q then set_param e (lit "q") (Some (q_show ops q)) else None.
  (** 253-257 [preference] *)
  Definition preference (e : entry) : option F :=
    match get_param e (lit "q") with Some (Some s) => q_read ops s | _ => None end.
  (** [preference().unwrap_or(0.001)] *)
  Definition weight (e : entry) : F := match preference e with Some q => q | None => q_default ops end.
  (** 343-351 and 411-419 [sorted_by_preference]; [sort_by] is stable *)
  Fixpoint insert (e : entry) (l : list entry) : list entry :=
    match l with
    | [] => [e]
    | x :: r => if q_above ops (weight x) (weight e) then x :: insert e r else e :: l
    end.
  Fixpoint sorted_by_preference (l : list entry) : list entry :=
    match l with [] => [] | e :: r => insert e (sorted_by_preference r) end.
  (** 425-446 [find_best_match] *)
  Definition partner (client : list entry) (s : entry) : option entry := find (fun c => mech_eqb (e_mech c) (e_mech s)) client.
  Fixpoint best_from (best : option (entry * F)) (server client : list entry) : option (entry * F) :=
    match server with
    | [] => best
    | s :: r =>
        match partner client s with
        | None => best_from best r client
        | Some c =>
            let combined := q_mul ops (weight s) (weight c) in
            match best with
            | None => best_from (Some (s, combined)) r client
            | Some (_, score) => best_from (if q_gt ops combined score then Some (s, combined) else best) r client
            end
        end
    end.
  Definition find_best_match (server client : list entry) : option entry :=
    match best_from None server client with Some (e, _) => Some e | None => None end.
End ops.
(** 508-512 [matches] *)
Definition matches (verify : list entry) (s : entry) : bool := existsb (fun e => mech_eqb (e_mech e) (e_mech s)) verify.
(** 310-318, 378-386, 472-480 [new] *)
Definition header_new (es : list entry) : option (list entry) := if MAX_ENTRIES <? llen es then None else Some es.

(** 284-296 [Display for SecurityEntry] *)
Definition show_param (p : str * option str) : str :=
  59 :: fst p ++ match snd p with Some v => 61 :: v | None => [] end.
Definition show_entry (e : entry) : str := mech_text (e_mech e) ++ flat_map show_param (e_params e).
(** 354-364, 448-458, 515-525 [Display] of the headers *)
Definition show (es : list entry) : str := join (lit ", ") (map show_entry es).

(** ** Reading *)
Definition put_first (c : N) (l : list str) : list str := match l with h :: t => (c :: h) :: t | [] => [[c]] end.
(** 617-653 [split_unquoted]; [q]: in quotes, [e]: after a backslash *)
Fixpoint split_unquoted (sep : N) (q e : bool) (s : str) : list str :=
  match s with
  | [] => [[]]
  | c :: r =>
      if e then put_first c (split_unquoted sep q false r)
      else if q && (c =? 92) then put_first c (split_unquoted sep q true r)
      else if c =? 34 then put_first c (split_unquoted sep (negb q) false r)
      else if (c =? sep) && negb q then [] :: split_unquoted sep q false r
      else put_first c (split_unquoted sep q false r)
  end.
(** 655-683 [split_once_unquoted] *)
Fixpoint split_once_unquoted (sep : N) (q e : bool) (s : str) : option (str * str) :=
  match s with
  | [] => None
  | c :: r =>
      let next q e := match split_once_unquoted sep q e r with Some (a, b) => Some (c :: a, b) | None => None end in
      if e then next q false
      else if q && (c =? 92) then next q true
      else if c =? 34 then next (negb q) false
      else if (c =? sep) && negb q then Some ([], r)
      else next q false
  end.
Section read.
  Context {F : Type} (ops : q_ops F).
  (** 592-612: one parameter *)
  Definition read_param (e : entry) (p : str) : option entry :=
    let p := trim p in
    if str_eqb p [] then Some e
    else match split_once_unquoted 61 false false p with
         | Some (k, v) =>
             let k := trim k in let v := trim v in
             if eq_ic k (lit "q") then match q_read ops v with Some _ => set_param e k (Some v) | None => Some e end
             else set_param e k (Some v)
         | None => set_param e p None
         end.
  Fixpoint read_params (e : entry) (ps : list str) : option entry :=
    match ps with [] => Some e | p :: r => match read_param e p with Some e' => read_params e' r | None => None end end.
  (** 573-615 [parse_single_security_entry] *)
  Definition read_entry (s : str) : option entry :=
    match split_unquoted 59 false false s with
    | [] => None
    | m :: ps =>
        if str_eqb (trim m) [] then None
        else match mech_parse (trim m) with Some m => read_params (entry_new m) ps | None => None end
    end.
  (** 549-564: the loop; [acc] in order *)
  Fixpoint read_entries (acc : list entry) (ps : list str) : option (list entry) :=
    match ps with
    | [] => Some acc
    | p :: r =>
        if MAX_ENTRIES <=? llen acc then None
        else if str_eqb (trim p) [] then read_entries acc r
        else match read_entry (trim p) with Some e => read_entries (acc ++ [e]) r | None => None end
    end.
  (** 546-571 [parse_security_entries] and 528-543 [parse_security_client], [.._server], [.._verify] *)
  Definition parse (s : str) : option (list entry) :=
    match read_entries [] (split_unquoted 44 false false s) with
    | Some [] | None => None
    | Some es => header_new es
    end.
End read.

(** thousandths, for examples *)
Definition milli (s : str) : option N :=
  if str_eqb s (lit "1") then Some 1000
  else match strip_prefix (lit "0.") s with
       | Some d => match parse_uint 999 d with
                   | Some n => if llen d =? 1 then Some (100 * n) else if llen d =? 2 then Some (10 * n) else if llen d =? 3 then Some n else None
                   | None => None
                   end
       | None => if str_eqb s (lit "0") then Some 0 else None
       end.
Definition show_milli (n : N) : str :=
  if n =? 1000 then lit "1" else
  let d k := 48 + n / k mod 10 in trim_end_by (N.eqb 46) (trim_end_by (N.eqb 48) (lit "0." ++ [d 100; d 10; d 1])).
Definition milli_ops : q_ops N := mkQ N milli (fun n => n <=? 1000) show_milli N.mul (fun a b => b <? a) (fun a b => b <? a) 1.
Example ex_read : exists es, parse milli_ops (lit "TLS;q=0.2, digest ;q=0.1;d-alg=""a,b""") = Some es /\ show es = lit "tls;q=0.2, digest;d-alg=""a,b"";q=0.1".
Proof. eexists. split; vm_compute; reflexivity. Qed.
