(** Strings, bytes and the Rust [str] / [slice] operations used by siphon-rs.

    A Rust [&str] / [SmolStr] is a list of Unicode scalar values ([N]); a byte
    slice is a list of bytes ([N] below 256).  These definitions model Rust
    standard library behaviour, not code of /repo; they are part of the
    trusted correspondence. *)
From Coq Require Import String Ascii NArith Bool Lia List.
Import ListNotations.
Export StringSyntax AsciiSyntax.
Open Scope N_scope.

Definition str := list N.

Definition lit (s : string) : str :=
  List.map N_of_ascii (list_ascii_of_string s).

Arguments lit s%string.

(** ** Equality *)
Fixpoint str_eqb (a b : str) : bool :=
  match a, b with
  | [], [] => true
  | x :: a', y :: b' => (x =? y) && str_eqb a' b'
  | _, _ => false
  end.

(** ** Character classes *)
Definition in_range (lo hi c : N) : bool := (lo <=? c) && (c <=? hi).
(** [u8::is_ascii_digit] / [char::is_ascii_digit] *)
Definition is_digit (c : N) : bool := in_range 48 57 c.
Definition is_upper (c : N) : bool := in_range 65 90 c.
Definition is_lower (c : N) : bool := in_range 97 122 c.
Definition is_alpha (c : N) : bool := is_upper c || is_lower c.
Definition is_alnum (c : N) : bool := is_alpha c || is_digit c.
(** [u8::is_ascii_whitespace]: space, tab, LF, FF, CR (no VT) *)
Definition is_ascii_ws (c : N) : bool :=
  (c =? 32) || (c =? 9) || (c =? 10) || (c =? 12) || (c =? 13).
(** [char::is_whitespace]: Unicode White_Space *)
Definition is_ws (c : N) : bool :=
  in_range 9 13 c || (c =? 32) || (c =? 133) || (c =? 160) || (c =? 5760)
  || in_range 8192 8202 c || (c =? 8232) || (c =? 8233) || (c =? 8239)
  || (c =? 8287) || (c =? 12288).
(** [char::is_ascii_control] *)
Definition is_ascii_control (c : N) : bool := (c <? 32) || (c =? 127).
(** [char::is_control] (general category Cc) *)
Definition is_control (c : N) : bool := (c <? 32) || in_range 127 159 c.
Definition is_ascii (c : N) : bool := c <? 128.

(** [to_ascii_lowercase] on one char *)
Definition lower_c (c : N) : N := if is_upper c then c + 32 else c.
Definition upper_c (c : N) : N := if is_lower c then c - 32 else c.
Definition lower (s : str) : str := map lower_c s.
Definition upper (s : str) : str := map upper_c s.
(** [str::eq_ignore_ascii_case] *)
Definition eq_ic (a b : str) : bool := str_eqb (lower a) (lower b).

(** ** UTF-8 lengths ([char::len_utf8], [str::len]) *)
Definition len_utf8 (c : N) : N :=
  if c <? 128 then 1 else if c <? 2048 then 2 else if c <? 65536 then 3 else 4.
Fixpoint blen (s : str) : N :=
  match s with [] => 0 | c :: r => len_utf8 c + blen r end.
Definition llen {A} (l : list A) : N := N.of_nat (length l).

(** ** Trimming *)
Fixpoint drop_while (p : N -> bool) (s : str) : str :=
  match s with
  | [] => []
  | c :: r => if p c then drop_while p r else s
  end.
Definition trim_start_by p (s : str) : str := drop_while p s.
Fixpoint trim_end_by (p : N -> bool) (s : str) : str :=
  match s with
  | [] => []
  | c :: r => match trim_end_by p r with [] => if p c then [] else [c] | t => c :: t end
  end.
Definition trim_by p (s : str) : str := trim_end_by p (trim_start_by p s).
(** [str::trim] *)
Definition trim (s : str) : str := trim_by is_ws s.
Definition trim_start (s : str) : str := trim_start_by is_ws s.
Definition trim_end (s : str) : str := trim_end_by is_ws s.

(** ** Searching and splitting *)
Definition mem (c : N) (s : str) : bool := existsb (N.eqb c) s.

(** [str::split_once(c)]: at the first occurrence *)
Fixpoint split_once (c : N) (s : str) : option (str * str) :=
  match s with
  | [] => None
  | x :: r =>
      if x =? c then Some ([], r)
      else match split_once c r with
           | Some (a, b) => Some (x :: a, b)
           | None => None
           end
  end.

(** [str::rsplit_once(c)]: at the last occurrence *)
Definition rsplit_once (c : N) (s : str) : option (str * str) :=
  match split_once c (rev s) with
  | Some (a, b) => Some (rev b, rev a)
  | None => None
  end.

(** [str::split(c)] (never empty) *)
Fixpoint split_on (c : N) (s : str) : list str :=
  match s with
  | [] => [[]]
  | x :: r =>
      if x =? c then [] :: split_on c r
      else match split_on c r with
           | [] => [[x]]
           | h :: t => (x :: h) :: t
           end
  end.

(** [str::split_whitespace] *)
Fixpoint split_ws_aux (cur : str) (s : str) : list str :=
  match s with
  | [] => match cur with [] => [] | _ => [rev cur] end
  | c :: r =>
      if is_ws c then
        match cur with
        | [] => split_ws_aux [] r
        | _ => rev cur :: split_ws_aux [] r
        end
      else split_ws_aux (c :: cur) r
  end.
Definition split_ws (s : str) : list str := split_ws_aux [] s.

(** [strip_prefix] *)
Fixpoint strip_prefix (p s : str) : option str :=
  match p, s with
  | [], _ => Some s
  | _ :: _, [] => None
  | x :: p', y :: s' => if x =? y then strip_prefix p' s' else None
  end.
Definition starts_with (p s : str) : bool :=
  match strip_prefix p s with Some _ => true | None => false end.
Definition ends_with (p s : str) : bool := starts_with (rev p) (rev s).

(** first position of a pattern: the text before it and after it
    ([memmem::find]) *)
Fixpoint find_sub (p s : str) : option (str * str) :=
  match strip_prefix p s with
  | Some rest => Some ([], rest)
  | None =>
      match s with
      | [] => None
      | x :: r =>
          match find_sub p r with
          | Some (a, b) => Some (x :: a, b)
          | None => None
          end
      end
  end.

(** [slice::join] with a separator *)
Fixpoint join (sep : str) (l : list str) : str :=
  match l with
  | [] => []
  | [x] => x
  | x :: r => x ++ sep ++ join sep r
  end.

(** ** Numbers *)
(** decimal digits of a number ([Display] of an unsigned integer) *)
Fixpoint print_fuel (f : nat) (n : N) : str :=
  match f with
  | O => []
  | S f' =>
      if n <? 10 then [48 + n]
      else print_fuel f' (n / 10) ++ [48 + n mod 10]
  end.
Definition print_N (n : N) : str := print_fuel (S (N.size_nat n)) n.

Definition digits_value (s : str) : N :=
  fold_left (fun acc c => acc * 10 + (c - 48)) s 0.

Definition all_digits (s : str) : bool := forallb is_digit s.

(** [str::parse::<uN>] with maximum [mx]: optional leading '+', at least one
    digit, only digits, value at most [mx] *)
Definition parse_uint (mx : N) (s : str) : option N :=
  let body := match s with c :: r => if c =? 43 then r else s | [] => s end in
  match body with
  | [] => None
  | _ => if all_digits body
         then let v := digits_value body in if v <=? mx then Some v else None
         else None
  end.

Definition u8_max : N := 255.
Definition u16_max : N := 65535.
Definition u32_max : N := 4294967295.
Definition u64_max : N := 18446744073709551615.

(** ** Association lists *)
Section Assoc.
  Context {K V : Type} (eqb : K -> K -> bool).
  Fixpoint lookup (k : K) (m : list (K * V)) : option V :=
    match m with
    | [] => None
    | (k', v) :: r => if eqb k k' then Some v else lookup k r
    end.
  Definition remove_key (k : K) (m : list (K * V)) : list (K * V) :=
    filter (fun e => negb (eqb k (fst e))) m.
  (** map insertion: the new entry replaces the old one *)
  Definition insert (k : K) (v : V) (m : list (K * V)) : list (K * V) :=
    (k, v) :: remove_key k m.
  Definition keys (m : list (K * V)) : list K := map fst m.
End Assoc.

(** ** Option and result helpers *)
Definition is_some {A} (o : option A) : bool :=
  match o with Some _ => true | None => false end.
Definition is_none {A} (o : option A) : bool := negb (is_some o).

Inductive result (A E : Type) : Type :=
| Ok (a : A)
| Err (e : E).
Arguments Ok {A E} a.
Arguments Err {A E} e.
Definition is_ok {A E} (r : result A E) : bool :=
  match r with Ok _ => true | Err _ => false end.
