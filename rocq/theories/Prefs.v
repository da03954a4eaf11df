(** Model of user agent capabilities, crates/sip-core/src/capabilities.rs
    (RFC 3840), and of caller preferences,
    crates/sip-core/src/caller_preferences.rs (RFC 3841).
    Numbers of type f64 in feature values are of any type [F] with the operations
    of [f64]: reading, writing, finiteness and being closer than EPSILON. Scores and
    q values are exact fractions: the rounding of f64 is not modelled. *)
From Coq Require Import NArith ZArith QArith Bool String List.
Import ListNotations.
From Verif Require Import Base Text.
Open Scope N_scope.
Open Scope list_scope.

(** capabilities.rs:80-119 [FeatureTag], in the order of the enumeration *)
Inductive tag := Audio | Video | Application | Data | Control | Text | Automata | Class | Duplex | Mobility | Description
  | Events | Priority | Methods | Schemes | Extensions | IsFocus | Actor | Language.
Definition all_tags : list tag := [Audio; Video; Application; Data; Control; Text; Automata; Class; Duplex; Mobility; Description; Events; Priority; Methods; Schemes; Extensions; IsFocus; Actor; Language].
Definition tag_ix (t : tag) : N :=
  match t with
  | Audio => 0 | Video => 1 | Application => 2 | Data => 3 | Control => 4 | Text => 5 | Automata => 6 | Class => 7 | Duplex => 8 | Mobility => 9 | Description => 10
  | Events => 11 | Priority => 12 | Methods => 13 | Schemes => 14 | Extensions => 15 | IsFocus => 16 | Actor => 17 | Language => 18
  end.
(** 149-175 [param_name] *)
Definition param_name (t : tag) : str :=
  match t with
  | Audio => lit "audio" | Video => lit "video" | Application => lit "application" | Data => lit "data" | Control => lit "control" | Text => lit "text"
  | Automata => lit "automata" | Class => lit "class" | Duplex => lit "duplex" | Mobility => lit "mobility" | Description => lit "description"
  | Events => lit "events" | Priority => lit "priority" | Methods => lit "methods" | Schemes => lit "schemes" | Extensions => lit "extensions"
  | IsFocus => lit "isfocus" | Actor => lit "actor" | Language => lit "language"
  end.
(** 178-202 [from_param_name] *)
Definition from_param_name (s : str) : option tag := find (fun t => str_eqb (lower s) (param_name t)) all_tags.
(** 218-228 [is_list_valued] *)
Definition is_list (t : tag) : bool := match t with Events | Priority | Methods | Schemes | Extensions => true | _ => false end.

(** the operations of f64 *)
Record f64_ops (F : Type) := mkF64 { f_read : str -> option F; f_write : F -> str; f_finite : F -> bool; f_close : F -> F -> bool }.
Arguments f_read {F}. Arguments f_write {F}. Arguments f_finite {F}. Arguments f_close {F}.
(** 246-258 [FeatureValue] *)
Inductive value (F : Type) := VBool (b : bool) | VTok (t : str) | VList (l : list str) | VStr (s : str) | VNum (n : F).
Arguments VBool {F}. Arguments VTok {F}. Arguments VList {F}. Arguments VStr {F}. Arguments VNum {F}.

(** 492-507 [is_valid_token], [is_valid_string]; caller_preferences.rs:146-155
    has the same tokens *)
Definition tok_char (c : N) : bool := is_alnum c || existsb (N.eqb c) (lit "-.!%*_+`'~").
Definition tok_ok (s : str) : bool := (blen s <=? 64) && negb (str_eqb s []) && forallb tok_char s.
Definition str_ok (s : str) : bool := (blen s <=? 256) && negb (existsb (fun c => (c <? 32) || (c =? 127) || (c =? 34)) s).
(** 305-360 [validate]; also [new_token], [new_token_list], [new_string],
    [new_numeric] *)
Definition valid {F} (ops : f64_ops F) (v : value F) : bool :=
  match v with
  | VBool _ => true
  | VTok t => tok_ok t
  | VList l => (llen l <=? 20) && forallb tok_ok l
  | VStr s => str_ok s
  | VNum n => f_finite ops n
  end.
Definition checked {F} (ops : f64_ops F) (v : value F) : option (value F) := if valid ops v then Some v else None.
(** 419-434 [to_param_value] of a valid value *)
Definition to_value {F} (ops : f64_ops F) (v : value F) : option str :=
  match v with
  | VBool _ => None
  | VTok t => Some t
  | VList [] => None
  | VList l => Some (34 :: join [44] l ++ [34])
  | VStr s => Some (34 :: s ++ [34])
  | VNum n => Some (f_write ops n)
  end.
Definition starts (c : N) (s : str) : bool := match s with x :: _ => x =? c | [] => false end.
Definition ends (c : N) (s : str) : bool := starts c (rev s).
Definition quoted (s : str) : bool := starts 34 s && ends 34 s && (2 <=? llen s).
(** the text between the quotes, [&v\[1..v.len() - 1\]] *)
Definition unquote (s : str) : str := removelast (tl s).
(** 510-546 [parse_token_list]; the checks are those of [new_token_list] *)
Definition token_list (s : str) : list str :=
  filter (fun t => negb (str_eqb t [])) (map trim (split_on 44 (if starts 34 (trim s) && ends 34 (trim s) then unquote (trim s) else trim s))).
(** 439-489 [from_param_value] *)
Definition from_value {F} (ops : f64_ops F) (t : tag) (o : option str) : option (value F) :=
  match o with
  | None => Some (VBool true)
  | Some v0 =>
      let v := trim v0 in
      if mem 34 v && negb (quoted v) then None
      else if is_list t then checked ops (VList (token_list v))
      else if starts 34 v && ends 34 v then checked ops (VStr (unquote v))
      else match f_read ops v with
           | Some n => checked ops (VNum n)
           | None => checked ops (VTok v)
           end
  end.

(** ** Sets (616-725 [CapabilitySet]): a BTreeMap *)
Definition caps (F : Type) := list (tag * value F).
Fixpoint cput {F} (t : tag) (v : value F) (l : caps F) : caps F :=
  match l with
  | [] => [(t, v)]
  | (t', v') :: r => if tag_ix t =? tag_ix t' then (t, v) :: r else if tag_ix t <? tag_ix t' then (t, v) :: l else (t', v') :: cput t v r
  end.
Definition cget {F} (t : tag) (l : caps F) : option (value F) := option_map snd (find (fun p => tag_ix t =? tag_ix (fst p)) l).
(** 692-703 [to_params]: fails if a value is not valid *)
Definition to_params {F} (ops : f64_ops F) (l : caps F) : option (list (str * option str)) :=
  if forallb (fun p => valid ops (snd p)) l
  then Some (fold_left (fun m p => match snd p with VBool false => m | v => bput (param_name (fst p)) (to_value ops v) m end) l [])
  else None.
(** 707-725 [from_params] *)
Fixpoint from_params {F} (ops : f64_ops F) (m : list (str * option str)) (acc : caps F) : option (caps F) :=
  match m with
  | [] => Some acc
  | (n, o) :: r =>
      match from_param_name n with
      | None => from_params ops r acc
      | Some t => match from_value ops t o with Some v => from_params ops r (cput t v acc) | None => None end
      end
  end.
(** 752-779 and caller_preferences.rs:302-331 [values_match] *)
Definition values_match {F} (ops : f64_ops F) (req avail : value F) : bool :=
  match req, avail with
  | VBool a, VBool b => Bool.eqb a b
  | VTok a, VTok b => eq_ic a b
  | VList a, VList b => (llen a <=? 20) && (llen b <=? 20) && forallb (fun x => existsb (fun y => str_eqb (lower x) (lower y)) b) a
  | VStr a, VStr b => str_eqb a b
  | VNum a, VNum b => f_finite ops a && f_finite ops b && f_close ops a b
  | _, _ => false
  end.
(** 735-748 [matches] *)
Definition caps_match {F} (ops : f64_ops F) (have req : caps F) : bool :=
  forallb (fun p => match cget (fst p) have with Some w => values_match ops (snd p) w | None => false end) req.

(** ** Caller preferences *)
(** caller_preferences.rs:166-184 [AcceptContact], 341-344 [RejectContact]; the
    q value of the former is not used *)
Record accept_contact (F : Type) := mkAccept { ac_features : caps F; ac_require : bool; ac_explicit : bool }.
Arguments mkAccept {F}. Arguments ac_features {F}. Arguments ac_require {F}. Arguments ac_explicit {F}.
(** 259-293 [AcceptContact::matches]: the loop counts the matches; [None] is the
    early return *)
Fixpoint count_matches {F} (ops : f64_ops F) (require : bool) (have req : caps F) (n : N) : option N :=
  match req with
  | [] => Some n
  | (t, v) :: r =>
      let hit := match cget t have with Some w => values_match ops v w | None => false end in
      if hit then count_matches ops require have r (n + 1) else if require then None else count_matches ops require have r n
  end.
Definition score {F} (ops : f64_ops F) (a : accept_contact F) (have : caps F) (advertised : bool) : Q :=
  match ac_features a with
  | [] => 1%Q
  | fs => if ac_explicit a && negb advertised then 0%Q
          else match count_matches ops (ac_require a) have fs 0 with
               | Some n => (inject_Z (Z.of_N n) / inject_Z (Z.of_N (llen fs)))%Q
               | None => 0%Q
               end
  end.
(** 397-420 [RejectContact::matches] *)
Definition rejects {F} (ops : f64_ops F) (fs : caps F) (have : caps F) (advertised : bool) : bool :=
  match fs with
  | [] => false
  | _ => advertised && forallb (fun p => match cget (fst p) have with Some w => values_match ops (snd p) w | None => false end) fs
  end.
(** 722-732 [ScoredContact] *)
Record contact := mkContact { sc_uri : str; sc_q : Q; sc_qa : Q; sc_explicit : bool }.
(** 829-865: the closure of [filter_map]; [None] drops the contact *)
Fixpoint total_score {F} (ops : f64_ops F) (acs : list (accept_contact F)) (have : caps F) (advertised : bool) (sum : Q) : option Q :=
  match acs with
  | [] => Some sum
  | a :: r => let s := score ops a have advertised in if ac_require a && Qeq_bool s 0 then None else total_score ops r have advertised (sum + s)%Q
  end.
Definition judge {F} (ops : f64_ops F) (acs : list (accept_contact F)) (rcs : list (caps F)) (c : contact) (have : caps F) : option contact :=
  if existsb (fun fs => rejects ops fs have (sc_explicit c)) rcs then None
  else match acs with
       | [] => Some c
       | _ => match total_score ops acs have (sc_explicit c) 0%Q with
              | Some t => Some (mkContact (sc_uri c) (sc_q c) (t / inject_Z (Z.of_N (llen acs)))%Q (sc_explicit c))
              | None => None
              end
       end.
(** 868-878: [sort_by] is stable; [before a b] if a must not come after b *)
Definition before (a b : contact) : bool := match Qcompare (sc_q b) (sc_q a) with Lt => true | Gt => false | Eq => Qle_bool (sc_qa b) (sc_qa a) end.
Fixpoint place (c : contact) (l : list contact) : list contact :=
  match l with [] => [c] | x :: r => if before c x then c :: l else x :: place c r end.
Definition sort_contacts (l : list contact) : list contact := fold_right place [] l.
Fixpoint opt_filter {A} (l : list (option A)) : list A := match l with [] => [] | Some a :: r => a :: opt_filter r | None :: r => opt_filter r end.
(** 800-881 [score_contacts]; [None] if a limit is passed *)
Definition score_contacts {F} (ops : f64_ops F) (cs : list contact) (acs : list (accept_contact F)) (rcs : list (caps F)) (haves : list (caps F)) : option (list contact) :=
  if (1024 <? llen cs) || (32 <? llen acs) || (32 <? llen rcs) || negb (llen cs =? llen haves) then None
  else Some (sort_contacts (opt_filter (map (fun p => judge ops acs rcs (fst p) (snd p)) (combine cs haves)))).

(** ** Request-Disposition (430-600) *)
Inductive choice := Yes | No.
Record disposition := mkDisp { rd_proxy : option choice; rd_fork : option choice; rd_cancel : option choice; rd_recurse : option choice; rd_parallel : option choice; rd_queue : option choice }.
Definition no_disposition : disposition := mkDisp None None None None None None.
Definition is_none {A} (o : option A) : bool := match o with None => true | Some _ => false end.
Definition rd_empty (d : disposition) : bool := is_none (rd_proxy d) && is_none (rd_fork d) && is_none (rd_cancel d) && is_none (rd_recurse d) && is_none (rd_parallel d) && is_none (rd_queue d).
Definition directive (d : disposition) (w : str) : disposition :=
  let l := lower w in
  let '(mkDisp a b c e f g) := d in
  if str_eqb l (lit "proxy") then mkDisp (Some Yes) b c e f g else if str_eqb l (lit "redirect") then mkDisp (Some No) b c e f g
  else if str_eqb l (lit "fork") then mkDisp a (Some Yes) c e f g else if str_eqb l (lit "no-fork") then mkDisp a (Some No) c e f g
  else if str_eqb l (lit "cancel") then mkDisp a b (Some Yes) e f g else if str_eqb l (lit "no-cancel") then mkDisp a b (Some No) e f g
  else if str_eqb l (lit "recurse") then mkDisp a b c (Some Yes) f g else if str_eqb l (lit "no-recurse") then mkDisp a b c (Some No) f g
  else if str_eqb l (lit "parallel") then mkDisp a b c e (Some Yes) g else if str_eqb l (lit "sequential") then mkDisp a b c e (Some No) g
  else if str_eqb l (lit "queue") then mkDisp a b c e f (Some Yes) else if str_eqb l (lit "no-queue") then mkDisp a b c e f (Some No)
  else d.
(** 535-569 [parse] *)
Definition parse_disposition (s : str) : option disposition :=
  if existsb (fun c => (c <? 32) || (c =? 127)) s then None
  else let d := fold_left directive (map trim (split_on 44 s)) no_disposition in if rd_empty d then None else Some d.
(** 578-603 [Display] *)
Definition word_of (o : option choice) (yes no : str) : list str := match o with Some Yes => [yes] | Some No => [no] | None => [] end.
Definition disposition_text (d : disposition) : str :=
  join (lit ", ") (word_of (rd_proxy d) (lit "proxy") (lit "redirect") ++ word_of (rd_fork d) (lit "fork") (lit "no-fork") ++ word_of (rd_cancel d) (lit "cancel") (lit "no-cancel")
    ++ word_of (rd_recurse d) (lit "recurse") (lit "no-recurse") ++ word_of (rd_parallel d) (lit "parallel") (lit "sequential") ++ word_of (rd_queue d) (lit "queue") (lit "no-queue")).
