(** UTF-8, percent decoding, hexadecimal digits, sorted maps and IP address
    literals: the parts of the Rust standard library (and of the
    [percent_encoding] crate) that several areas use.  Nothing here models
    code of /repo. *)
From Coq Require Import NArith Bool List.
Import ListNotations.
From Verif Require Import Base.
Open Scope N_scope.

(** A Unicode scalar value, i.e. a Rust [char] *)
Definition is_scalar (c : N) : bool := (c <? 55296) || in_range 57344 1114111 c.
(** a list of code points that is a Rust string *)
Definition is_str (s : str) : bool := forallb is_scalar s.
Definition is_bytes (b : list N) : bool := forallb (fun c => c <? 256) b.

(** [char::encode_utf8] *)
Definition utf8_c (c : N) : list N :=
  if c <? 128 then [c]
  else if c <? 2048 then [192 + c / 64; 128 + c mod 64]
  else if c <? 65536 then [224 + c / 4096; 128 + c / 64 mod 64; 128 + c mod 64]
  else [240 + c / 262144; 128 + c / 4096 mod 64; 128 + c / 64 mod 64; 128 + c mod 64].
(** [str::as_bytes] *)
Definition utf8 (s : str) : list N := flat_map utf8_c s.

(** continuation byte *)
Definition cont (b : N) : bool := in_range 128 191 b.
(** [std::str::from_utf8] (strict: no overlong forms, no surrogates) *)
Fixpoint from_utf8 (b : list N) : option str :=
  match b with
  | [] => Some []
  | b0 :: r0 =>
      if b0 <? 128 then
        match from_utf8 r0 with Some s => Some (b0 :: s) | None => None end
      else if in_range 194 223 b0 then
        match r0 with
        | b1 :: r1 =>
            if cont b1 then
              match from_utf8 r1 with
              | Some s => Some (((b0 - 192) * 64 + (b1 - 128)) :: s) | None => None end
            else None
        | _ => None
        end
      else if in_range 224 239 b0 then
        match r0 with
        | b1 :: b2 :: r2 =>
            let lo := if b0 =? 224 then 160 else 128 in
            let hi := if b0 =? 237 then 159 else 191 in
            if in_range lo hi b1 && cont b2 then
              match from_utf8 r2 with
              | Some s => Some (((b0 - 224) * 4096 + (b1 - 128) * 64 + (b2 - 128)) :: s) | None => None end
            else None
        | _ => None
        end
      else if in_range 240 244 b0 then
        match r0 with
        | b1 :: b2 :: b3 :: r3 =>
            let lo := if b0 =? 240 then 144 else 128 in
            let hi := if b0 =? 244 then 143 else 191 in
            if in_range lo hi b1 && cont b2 && cont b3 then
              match from_utf8 r3 with
              | Some s => Some (((b0 - 240) * 262144 + (b1 - 128) * 4096 + (b2 - 128) * 64 + (b3 - 128)) :: s)
              | None => None end
            else None
        | _ => None
        end
      else None
  end.

(** ** Hexadecimal digits ([char::to_digit(16)]) *)
Definition hex_val (c : N) : option N :=
  if is_digit c then Some (c - 48)
  else if in_range 97 102 c then Some (c - 87)
  else if in_range 65 70 c then Some (c - 55)
  else None.
Definition is_hex (c : N) : bool := is_some (hex_val c).

(** [percent_encoding::percent_decode]: a byte '%' followed by two hex digits
    stands for one byte, everything else for itself *)
Fixpoint pct_decode (b : list N) : list N :=
  match b with
  | [] => []
  | c :: r =>
      if c =? 37 then
        match r with
        | h :: l :: r' =>
            match hex_val h, hex_val l with
            | Some x, Some y => (16 * x + y) :: pct_decode r'
            | _, _ => c :: pct_decode r
            end
        | _ => c :: pct_decode r
        end
      else c :: pct_decode r
  end.
(** [percent_decode_str(s).decode_utf8()] *)
Definition pct_decode_str (s : str) : option str := from_utf8 (pct_decode (utf8 s)).

(** ** [BTreeMap<SmolStr, _>]: an association list sorted by key.  UTF-8 byte
    order is code point order. *)
Fixpoint str_ltb (a b : str) : bool :=
  match a, b with
  | [], [] => false
  | [], _ :: _ => true
  | _ :: _, [] => false
  | x :: a', y :: b' => (x <? y) || ((x =? y) && str_ltb a' b')
  end.
Section BMap.
  Context {V : Type}.
  Fixpoint bput (k : str) (v : V) (m : list (str * V)) : list (str * V) :=
    match m with
    | [] => [(k, v)]
    | (k', v') :: r =>
        if str_eqb k k' then (k, v) :: r
        else if str_ltb k k' then (k, v) :: m
        else (k', v') :: bput k v r
    end.
  Definition bget (k : str) (m : list (str * V)) : option V := lookup str_eqb k m.
  Fixpoint sorted_keys (m : list (str * V)) : Prop :=
    match m with
    | [] => True
    | (k, _) :: r => (forall k', In k' (keys r) -> str_ltb k k' = true) /\ sorted_keys r
    end.
End BMap.

(** ** IP address literals ([std::net] parser, library/core/src/net/parser.rs);
    only acceptance is modelled *)
(** the leading digits of base [hex?16:10] and the rest *)
Fixpoint span (p : N -> bool) (s : str) : str * str :=
  match s with
  | [] => ([], [])
  | c :: r => if p c then let '(a, b) := span p r in (c :: a, b) else ([], s)
  end.
(** [read_number(16, Some(4), true)] *)
Definition read_group (s : str) : option str :=
  let '(d, r) := span is_hex s in
  if (1 <=? llen d) && (llen d <=? 4) then Some r else None.
(** [read_number(10, Some(3), false)] as [u8] *)
Definition read_octet (s : str) : option str :=
  let '(d, r) := span is_digit s in
  if (1 <=? llen d) && (llen d <=? 3) && (digits_value d <=? 255)
     && negb ((1 <? llen d) && match d with c :: _ => c =? 48 | [] => false end)
  then Some r else None.
Definition read_char (c : N) (s : str) : option str :=
  match s with x :: r => if x =? c then Some r else None | [] => None end.
Definition obind {A B} (o : option A) (f : A -> option B) : option B :=
  match o with Some a => f a | None => None end.
(** [read_ipv4_addr] (the length test of [Ipv4Addr::from_str] is not needed
    here) *)
Definition read_ipv4 (s : str) : option str :=
  obind (read_octet s) (fun s => obind (read_char 46 s) (fun s =>
  obind (read_octet s) (fun s => obind (read_char 46 s) (fun s =>
  obind (read_octet s) (fun s => obind (read_char 46 s) (fun s => read_octet s)))))).
(** [read_separator(':', i, ..)] *)
Definition sep (i : nat) (s : str) (f : str -> option str) : option str :=
  match i with O => f s | S _ => obind (read_char 58 s) f end.
(** [read_groups]: [k] slots left, [i] read so far; result: groups read,
    whether they end in an IPv4 address, rest *)
Fixpoint read_groups (k i : nat) (s : str) : nat * bool * str :=
  match k with
  | O => (i, false, s)
  | S k' =>
      match (match k' with O => None | S _ => sep i s read_ipv4 end) with
      | Some r => (i + 2, true, r)%nat
      | None =>
          match sep i s read_group with
          | Some r => read_groups k' (S i) r
          | None => (i, false, s)
          end
      end
  end.
(** [Ipv6Addr::from_str] succeeds *)
Definition ipv6_ok (s : str) : bool :=
  let '(n, v4, r) := read_groups 8 0 s in
  if Nat.eqb n 8 then match r with [] => true | _ => false end
  else if v4 then false
  else match obind (read_char 58 r) (read_char 58) with
       | None => false
       | Some r => let '(_, _, r') := read_groups (7 - n) 0 r in
                   match r' with [] => true | _ => false end
       end.
(** [Ipv4Addr::from_str] succeeds *)
Definition ipv4_ok (s : str) : bool :=
  (llen s <=? 15) && match read_ipv4 s with Some [] => true | _ => false end.
