(** Model of the Referred-By header (crates/sip-core/src/referred_by.rs; line numbers are of
    that file).  Errors are [None]; a slice out of range is [Panics]. *)
From Coq Require Import NArith Bool String List.
Import ListNotations.
From Verif Require Import Base Text Uri AnyUri Msg PIdent.
Open Scope N_scope.
Open Scope list_scope.

(** 121-126 [ReferredByHeader]: a name and an address without parameters, a Content-ID and the
    other parameters *)
Record referred := mkRef { rf_name : option str; rf_uri : any_uri; rf_cid : option str; rf_params : list (str * str) }.
(** 485-507 [validate_cid]; 544-562 [validate_param_name]; 564-578 [validate_param_value] *)
Definition cid_ok (s : str) : bool := match s with [] => false | _ => (blen s <=? 256) && negb (existsb is_ascii_control s) end.
Definition key_ok (s : str) : bool := match s with [] => false | _ => (blen s <=? 64) && negb (existsb is_ascii_control s) end.
Definition val_ok (s : str) : bool := (blen s <=? 256) && negb (existsb is_ascii_control s).
(** 145-158 [new], 183-203 [with_name] *)
Definition rf_make (d : option str) (u : any_uri) : option referred :=
  match na_new d u [] with Some na => Some (mkRef (na_display na) (na_uri na) None []) | None => None end.
Definition rf_new (d : option str) (text : str) : option referred :=
  match parse_uri text with Some u => rf_make d (ASip u) | None => None end.
(** 230-234 [with_cid] *)
Definition rf_with_cid (h : referred) (c : str) : option referred :=
  if cid_ok c then Some (mkRef (rf_name h) (rf_uri h) (Some c) (rf_params h)) else None.
(** 257-294 [with_param], [add_param] *)
Definition put_param (m : list (str * str)) (n v : str) : option (list (str * str)) :=
  if key_ok n && val_ok v && negb (20 <=? llen m) then match bget (lower n) m with Some _ => None | None => Some (bput (lower n) v m) end else None.
Definition rf_add (h : referred) (n v : str) : option referred :=
  match put_param (rf_params h) n v with Some m => Some (mkRef (rf_name h) (rf_uri h) (rf_cid h) m) | None => None end.
(** 302-317 [has_signature], [get_cid], [get_param] *)
Definition rf_signed (h : referred) : bool := match rf_cid h with Some _ => true | None => false end.
Definition rf_get (h : referred) (n : str) : option str := bget (lower n) (rf_params h).
(** 462-481 Display *)
Definition show_pair (p : str * str) : str := lit ";" ++ fst p ++ lit "=" ++ snd p.
Definition rf_show (h : referred) : str :=
  match rf_name h with Some n => lit """" ++ n ++ lit """ " | None => [] end ++ lit "<" ++ any_text (rf_uri h) ++ lit ">"
  ++ match rf_cid h with Some c => lit ";cid=""" ++ c ++ lit """" | None => [] end ++ flat_map show_pair (rf_params h).

(** 377-386: the quotation marks around a display name; a name that is one quotation mark only
    would be cut out of range *)
Definition quoted (s : str) : bool := starts_with (lit """") s && ends_with (lit """") s.
Definition inner (s : str) : str := removelast (tl s).
Definition display (s : str) : outcome (option str) :=
  match s with
  | [] => Ret None
  | _ => if quoted s then if llen s =? 1 then Panics else Ret (Some (inner s)) else Ret (Some s)
  end.
(** 405-453 the parameters *)
Definition rf_part (a : option str * list (str * str)) (p : str) : option (option str * list (str * str)) :=
  match trim p with
  | [] => Some a
  | t =>
      if 20 <=? llen (snd a) then None
      else match split_once 61 t with
           | None => None
           | Some (k, v) =>
               let k := trim k in
               let v := let w := trim v in if (2 <=? llen w) && quoted w then inner w else w in
               if eq_ic k (lit "cid")
               then if cid_ok v then match fst a with Some _ => None | None => Some (Some v, snd a) end else None
               else if key_ok k && val_ok v then match bget (lower k) (snd a) with Some _ => None | None => Some (fst a, bput (lower k) v (snd a)) end else None
           end
  end.
Fixpoint rf_parts (a : option str * list (str * str)) (ps : list str) : option (option str * list (str * str)) :=
  match ps with [] => Some a | p :: r => match rf_part a p with Some a' => rf_parts a' r | None => None end end.
(** 392-399, 401-459 the rest of the reader *)
Definition rf_finish (d : option str) (u ps : str) : option referred :=
  match parse_any u with
  | None => None
  | Some x =>
      match rf_make d x with
      | None => None
      | Some h => match (match ps with [] => Some (None, []) | _ => rf_parts (None, []) (split_on 59 ps) end) with
                  | Some (c, m) => Some (mkRef (rf_name h) (rf_uri h) c m)
                  | None => None
                  end
      end
  end.
(** 345-460 [parse]; 509-542 [find_unquoted_angle_brackets] is the [to_open] and [to_close] of
    PIdent.v (the same code), and looking for the brackets again in the part up to the closing
    one finds the same ones; in a value without brackets the part before the semicolon has none *)
Definition parse_referred (s : str) : outcome (option referred) :=
  if 2048 <? blen s then Ret None
  else
    let input := trim s in
    match to_open false input with
    | None => Ret None
    | Some (Some (before, rest)) =>
        match to_close false rest with
        | None => Ret None
        | Some (inside, after) => match display (trim before) with Panics => Panics | Ret d => Ret (rf_finish d inside (trim after)) end
        end
    | Some None => Ret (match split_once 59 input with Some (a, b) => rf_finish None a (trim (59 :: b)) | None => rf_finish None input [] end)
    end.
