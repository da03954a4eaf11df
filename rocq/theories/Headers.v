(** Model of the SIP header collection (crates/sip-core/src/headers.rs). *)
From Coq Require Import Arith NArith Bool List.
Import ListNotations.
From Verif Require Import Base.
Open Scope N_scope.

(** headers.rs:1-20 limits (MAX_HEADER_NAME_LENGTH, MAX_HEADER_VALUE_LENGTH,
    MAX_HEADERS) *)
Definition MAX_HEADER_NAME_LENGTH : N := 128.
Definition MAX_HEADER_VALUE_LENGTH : N := 8192.
Definition MAX_HEADERS : N := 200.

(** headers.rs:74-77 [Header]: a name/value pair *)
Definition header := (str * str)%type.
(** headers.rs:157-159 [Headers]: an ordered vector *)
Definition headers := list header.

(** headers.rs:7-20 [HeaderError]; payloads of the variants are dropped *)
Inductive header_error :=
| NameTooLong | ValueTooLong | TooManyHeaders | InvalidName | InvalidValue | EmptyName.

(** headers.rs:459-464: characters allowed in a header name *)
Definition header_name_char (c : N) : bool :=
  is_alnum c || existsb (N.eqb c) (lit "!%'*+-.^_`|~").

(** headers.rs:437-471 [validate_header_name] *)
Definition validate_header_name (name : str) : option header_error :=
  match name with
  | [] => Some EmptyName
  | _ =>
      if MAX_HEADER_NAME_LENGTH <? blen name then Some NameTooLong
      else if existsb is_ascii_control name then Some InvalidName
      else if forallb header_name_char name then None else Some InvalidName
  end.

(** headers.rs:482-506 [validate_header_value] *)
Definition validate_header_value (value : str) : option header_error :=
  if MAX_HEADER_VALUE_LENGTH <? blen value then Some ValueTooLong
  else if mem 13 value || mem 10 value then Some InvalidValue
  else if mem 0 value then Some InvalidValue
  else None.

(** headers.rs:90-101 [Header::new] *)
Definition header_new (name value : str) : result header header_error :=
  match validate_header_name name with
  | Some e => Err e
  | None => match validate_header_value value with
            | Some e => Err e
            | None => Ok (name, value)
            end
  end.

(** headers.rs:125-127 [Header::name_eq] *)
Definition name_eq (h : header) (n : str) : bool := eq_ic (fst h) n.

(** headers.rs:186-203 [Headers::push] *)
Definition hpush (hs : headers) (name value : str) : result headers header_error :=
  if MAX_HEADERS <=? llen hs then Err TooManyHeaders
  else match header_new name value with
       | Err e => Err e
       | Ok h => Ok (hs ++ [h])
       end.

(** headers.rs:211-221 [Headers::push_header] (the header was validated when
    it was built) *)
Definition hpush_header (hs : headers) (h : header) : result headers header_error :=
  if MAX_HEADERS <=? llen hs then Err TooManyHeaders else Ok (hs ++ [h]).

(** headers.rs:238-243 [Headers::get] *)
Definition hget (name : str) (hs : headers) : option str :=
  match find (fun h => name_eq h name) hs with
  | Some h => Some (snd h)
  | None => None
  end.

(** headers.rs:258-271 [Headers::get_all] / [get_all_smol] *)
Definition hget_all (name : str) (hs : headers) : list str :=
  map snd (filter (fun h => name_eq h name) hs).

(** headers.rs:279-281 [Headers::contains] *)
Definition hcontains (name : str) (hs : headers) : bool :=
  existsb (fun h => name_eq h name) hs.

(** headers.rs:291-295 [Headers::remove] *)
Definition hremove (name : str) (hs : headers) : headers :=
  filter (fun h => negb (name_eq h name)) hs.

(** iter_mut().find(..) followed by an assignment of the value *)
Fixpoint set_first (name value : str) (hs : headers) : option headers :=
  match hs with
  | [] => None
  | h :: r =>
      if name_eq h name then Some ((fst h, value) :: r)
      else match set_first name value r with
           | Some r' => Some (h :: r')
           | None => None
           end
  end.

(** headers.rs:300-312 [Headers::replace_first] *)
Definition hreplace_first (hs : headers) (name value : str)
  : result (headers * bool) header_error :=
  match validate_header_value value with
  | Some e => Err e
  | None => match set_first name value hs with
            | Some hs' => Ok (hs', true)
            | None => Ok (hs, false)
            end
  end.

(** headers.rs:315-343 [Headers::set_or_push] *)
Definition hset_or_push (hs : headers) (name value : str)
  : result headers header_error :=
  match validate_header_name name with
  | Some e => Err e
  | None =>
      match validate_header_value value with
      | Some e => Err e
      | None =>
          match set_first name value hs with
          | Some hs' => Ok hs'
          | None => if MAX_HEADERS <=? llen hs then Err TooManyHeaders
                    else Ok (hs ++ [(name, value)])
          end
      end
  end.

(** headers.rs:357-359 [Headers::remove_at]: panics when out of bounds *)
Definition hremove_at (i : nat) (hs : headers) : option headers :=
  if (i <? length hs)%nat then Some (firstn i hs ++ skipn (S i) hs) else None.

(** headers.rs:414-424 [Headers::try_from_iter] / [from_vec] *)
Definition hfrom_vec (l : list header) : result headers header_error :=
  if MAX_HEADERS <? llen l then Err TooManyHeaders else Ok l.

(** headers.rs:404-410 [FromIterator]: silently keeps the first 200 *)
Definition hcollect (l : list header) : headers := firstn (N.to_nat MAX_HEADERS) l.

(** headers.rs:345-351 [Headers::retain] *)
Definition hretain (f : header -> bool) (hs : headers) : headers := filter f hs.
(** headers.rs:372-374 [Headers::clear] *)
Definition hclear (hs : headers) : headers := [].

(** The calls a program can make on a collection.  [Header] values can only be
    made by [Header::new] (the fields are private), so the operations taking
    ready-made headers take name/value pairs and build them first. *)
Inductive hop :=
| HPush (n v : str) | HPushHeader (n v : str) | HRemove (n : str)
| HReplaceFirst (n v : str) | HSetOrPush (n v : str)
| HRetain (f : header -> bool) | HRemoveAt (i : nat) | HClear
| HFromVec (l : list (str * str)) | HCollect (l : list (str * str)).

(** build headers from pairs, failing on the first invalid one *)
Fixpoint build_headers (l : list (str * str)) : option (list header) :=
  match l with
  | [] => Some []
  | (n, v) :: r =>
      match header_new n v, build_headers r with
      | Ok h, Some t => Some (h :: t)
      | _, _ => None
      end
  end.

Definition or_same (hs : headers) (r : result headers header_error) : headers :=
  match r with Ok hs' => hs' | Err _ => hs end.

(** one API call; an error leaves the collection as it was; [None] is a panic *)
Definition hstep (hs : headers) (o : hop) : option headers :=
  match o with
  | HPush n v => Some (or_same hs (hpush hs n v))
  | HPushHeader n v =>
      Some (match header_new n v with Ok h => or_same hs (hpush_header hs h) | Err _ => hs end)
  | HRemove n => Some (hremove n hs)
  | HReplaceFirst n v =>
      Some (match hreplace_first hs n v with Ok (hs', _) => hs' | Err _ => hs end)
  | HSetOrPush n v => Some (or_same hs (hset_or_push hs n v))
  | HRetain f => Some (hretain f hs)
  | HRemoveAt i => hremove_at i hs
  | HClear => Some (hclear hs)
  | HFromVec l =>
      Some (match build_headers l with Some l' => or_same hs (hfrom_vec l') | None => hs end)
  | HCollect l =>
      Some (match build_headers l with Some l' => hcollect l' | None => hs end)
  end.

Fixpoint hrun (hs : headers) (ops : list hop) : option headers :=
  match ops with
  | [] => Some hs
  | o :: r => match hstep hs o with Some hs' => hrun hs' r | None => None end
  end.
