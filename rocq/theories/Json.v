(** Base64url without padding and JSON, as the crates [base64] (engine
    [URL_SAFE_NO_PAD]) and [serde_json] read and write them. Nothing here models
    code of /repo; sip-identity calls these. JSON texts are bytes. Simplifications:
    a number with a fraction or an exponent is kept without its value; errors carry
    no text. *)
From Coq Require Import ZArith NArith Bool String List.
Import ListNotations.
From Verif Require Import Base Text.
Open Scope N_scope.
Open Scope list_scope.

(** ** Base64url *)
(** the value of a symbol *)
Definition b64_val (c : N) : option N :=
  if is_upper c then Some (c - 65)
  else if is_lower c then Some (c - 71)
  else if is_digit c then Some (c + 4)
  else if c =? 45 then Some 62
  else if c =? 95 then Some 63
  else None.
Definition b64_sym (v : N) : N :=
  if v <? 26 then v + 65 else if v <? 52 then v + 71 else if v <? 62 then v - 4 else if v =? 62 then 45 else 95.
(** [Engine::encode] *)
Fixpoint b64_enc (b : list N) : str :=
  match b with
  | x :: y :: z :: r => b64_sym (x / 4) :: b64_sym (x mod 4 * 16 + y / 16) :: b64_sym (y mod 16 * 4 + z / 64) :: b64_sym (z mod 64) :: b64_enc r
  | [x; y] => [b64_sym (x / 4); b64_sym (x mod 4 * 16 + y / 16); b64_sym (y mod 16 * 4)]
  | [x] => [b64_sym (x / 4); b64_sym (x mod 4 * 16)]
  | [] => []
  end.
(** [Engine::decode]: no padding, no unused bits set, no other symbol *)
Fixpoint b64_dec (s : str) : option (list N) :=
  match s with
  | [] => Some []
  | [_] => None
  | [c0; c1] =>
      match b64_val c0, b64_val c1 with
      | Some v0, Some v1 => if v1 mod 16 =? 0 then Some [v0 * 4 + v1 / 16] else None
      | _, _ => None
      end
  | [c0; c1; c2] =>
      match b64_val c0, b64_val c1, b64_val c2 with
      | Some v0, Some v1, Some v2 => if v2 mod 4 =? 0 then Some [v0 * 4 + v1 / 16; v1 mod 16 * 16 + v2 / 4] else None
      | _, _, _ => None
      end
  | c0 :: c1 :: c2 :: c3 :: r =>
      match b64_val c0, b64_val c1, b64_val c2, b64_val c3, b64_dec r with
      | Some v0, Some v1, Some v2, Some v3, Some b =>
          Some (v0 * 4 + v1 / 16 :: v1 mod 16 * 16 + v2 / 4 :: v2 mod 4 * 64 + v3 :: b)
      | _, _, _, _, _ => None
      end
  end.

(** ** JSON values *)
(** a piece of a string: a byte, or the number of a [\uXXXX] escape *)
Inductive junit := JB (b : N) | JU (n : N).
Inductive json :=
| JNull | JBool (b : bool)
| JNum (neg : bool) (digits : list N) (float : bool)
| JStr (u : list junit)
| JArr (l : list json)
| JObj (l : list (list junit * json)).

Definition is_jws (c : N) : bool := (c =? 32) || (c =? 10) || (c =? 9) || (c =? 13).
Definition skip_ws (b : list N) : list N := drop_while is_jws b.

(** one-character escapes *)
Definition esc_char (e : N) : option N :=
  if e =? 34 then Some 34 else if e =? 92 then Some 92 else if e =? 47 then Some 47
  else if e =? 98 then Some 8 else if e =? 102 then Some 12 else if e =? 110 then Some 10
  else if e =? 114 then Some 13 else if e =? 116 then Some 9 else None.
(** a string, after its opening quote *)
Fixpoint jstring (b : list N) : option (list junit * list N) :=
  match b with
  | [] => None
  | c :: r =>
      if c =? 34 then Some ([], r)
      else if c =? 92 then
        match r with
        | [] => None
        | e :: r1 =>
            if e =? 117 then
              match r1 with
              | h0 :: h1 :: h2 :: h3 :: r2 =>
                  match hex_val h0, hex_val h1, hex_val h2, hex_val h3 with
                  | Some a0, Some a1, Some a2, Some a3 =>
                      match jstring r2 with
                      | Some (u, q) => Some (JU (((a0 * 16 + a1) * 16 + a2) * 16 + a3) :: u, q) | None => None end
                  | _, _, _, _ => None
                  end
              | _ => None
              end
            else match esc_char e with
                 | Some d => match jstring r1 with Some (u, q) => Some (JB d :: u, q) | None => None end
                 | None => None
                 end
        end
      else if c <? 32 then None
      else match jstring r with Some (u, q) => Some (JB c :: u, q) | None => None end
  end.
(** the text of a string: surrogate escapes must come in pairs, the bytes must be UTF-8 *)
Definition is_high (n : N) : bool := in_range 55296 56319 n.
Definition is_low (n : N) : bool := in_range 56320 57343 n.
Fixpoint unit_bytes (u : list junit) : option (list N) :=
  match u with
  | [] => Some []
  | JB b :: r => match unit_bytes r with Some t => Some (b :: t) | None => None end
  | JU n :: r =>
      if is_high n then
        match r with
        | JU m :: r' => if is_low m then match unit_bytes r' with Some t => Some (utf8_c ((n - 55296) * 1024 + (m - 56320) + 65536) ++ t) | None => None end else None
        | _ => None
        end
      else if is_low n then None
      else match unit_bytes r with Some t => Some (utf8_c n ++ t) | None => None end
  end.
Definition json_text (u : list junit) : option str := obind (unit_bytes u) from_utf8.

(** a number *)
Definition jfrac (b : list N) : option (bool * list N) :=
  match b with
  | c :: r => if c =? 46 then match span is_digit r with ([], _) => None | (_, r') => Some (true, r') end else Some (false, b)
  | [] => Some (false, b)
  end.
Definition jexp (b : list N) : option (bool * list N) :=
  match b with
  | c :: r =>
      if (c =? 101) || (c =? 69) then
        let r1 := match r with s :: r' => if (s =? 43) || (s =? 45) then r' else r | [] => r end in
        match span is_digit r1 with ([], _) => None | (_, r') => Some (true, r') end
      else Some (false, b)
  | [] => Some (false, b)
  end.
Definition jnum (b : list N) : option (json * list N) :=
  let '(neg, b1) := match b with c :: r => if c =? 45 then (true, r) else (false, b) | [] => (false, b) end in
  match span is_digit b1 with
  | ([], _) => None
  | (d :: ds, r) =>
      if (d =? 48) && negb (length ds =? 0)%nat then None
      else match jfrac r with
           | None => None
           | Some (f1, r1) => match jexp r1 with None => None | Some (f2, r2) => Some (JNum neg (d :: ds) (f1 || f2), r2) end
           end
  end.
(** a value; the fuel bounds the nesting and the length of lists *)
Fixpoint jval (f : nat) (b : list N) : option (json * list N) :=
  match f with
  | O => None
  | S f' =>
      match skip_ws b with
      | [] => None
      | c :: r =>
          if c =? 34 then match jstring r with Some (u, q) => Some (JStr u, q) | None => None end
          else if c =? 91 then
            match skip_ws r with
            | [] => None
            | d :: r1 => if d =? 93 then Some (JArr [], r1) else match jelems f' r with Some (l, q) => Some (JArr l, q) | None => None end
            end
          else if c =? 123 then
            match skip_ws r with
            | [] => None
            | d :: r1 => if d =? 125 then Some (JObj [], r1) else match jmembers f' r with Some (l, q) => Some (JObj l, q) | None => None end
            end
          else if c =? 110 then match strip_prefix (lit "ull") r with Some q => Some (JNull, q) | None => None end
          else if c =? 116 then match strip_prefix (lit "rue") r with Some q => Some (JBool true, q) | None => None end
          else if c =? 102 then match strip_prefix (lit "alse") r with Some q => Some (JBool false, q) | None => None end
          else jnum (c :: r)
      end
  end
with jelems (f : nat) (b : list N) : option (list json * list N) :=
  match f with
  | O => None
  | S f' =>
      match jval f' b with
      | None => None
      | Some (v, r) =>
          match skip_ws r with
          | [] => None
          | d :: r1 =>
              if d =? 93 then Some ([v], r1)
              else if d =? 44 then match jelems f' r1 with Some (l, q) => Some (v :: l, q) | None => None end
              else None
          end
      end
  end
with jmembers (f : nat) (b : list N) : option (list (list junit * json) * list N) :=
  match f with
  | O => None
  | S f' =>
      match skip_ws b with
      | [] => None
      | c :: r =>
          if c =? 34 then
            match jstring r with
            | None => None
            | Some (k, r1) =>
                match skip_ws r1 with
                | [] => None
                | d :: r2 =>
                    if d =? 58 then
                      match jval f' r2 with
                      | None => None
                      | Some (v, r3) =>
                          match skip_ws r3 with
                          | [] => None
                          | e :: r4 =>
                              if e =? 125 then Some ([(k, v)], r4)
                              else if e =? 44 then match jmembers f' r4 with Some (l, q) => Some ((k, v) :: l, q) | None => None end
                              else None
                          end
                      end
                    else None
                end
            end
          else None
      end
  end.
(** a whole document *)
Definition json_parse (b : list N) : option json :=
  match jval (S (length b)) b with
  | Some (v, r) => match skip_ws r with [] => Some v | _ => None end
  | None => None
  end.

(** ** Reading values into Rust types, as [#[derive(Deserialize)]] does *)
Definition as_string (v : json) : option str := match v with JStr u => json_text u | _ => None end.
Definition as_option {A} (f : json -> option A) (v : json) : option (option A) :=
  match v with JNull => Some None | _ => match f v with Some a => Some (Some a) | None => None end end.
(** [i64]: a float (also [-0] and what is too large) is refused *)
Definition as_i64 (v : json) : option Z :=
  match v with
  | JNum neg ds false =>
      let n := digits_value ds in
      if neg then if (n =? 0) || (9223372036854775808 <? n) then None else Some (- Z.of_N n)%Z
      else if 9223372036854775807 <? n then None else Some (Z.of_N n)
  | _ => None
  end.
Fixpoint all_strings (l : list json) : option (list str) :=
  match l with
  | [] => Some []
  | v :: r => match as_string v, all_strings r with Some s, Some t => Some (s :: t) | _, _ => None end
  end.
Definition as_strings (v : json) : option (list str) := match v with JArr l => all_strings l | _ => None end.
(** the members of an object, by name *)
Fixpoint named (l : list (list junit * json)) : option (list (str * json)) :=
  match l with
  | [] => Some []
  | (k, v) :: r => match json_text k, named r with Some n, Some t => Some ((n, v) :: t) | _, _ => None end
  end.
Definition values_of (n : str) (l : list (str * json)) : list json := map snd (filter (fun p => str_eqb n (fst p)) l).
(** the fields of a struct: a name given twice is refused, an unknown name ignored; a
    list gives the fields by position *)
Definition fields (names : list str) (v : json) : option (list (option json)) :=
  match v with
  | JObj l =>
      match named l with
      | None => None
      | Some m =>
          if forallb (fun n => (length (values_of n m) <=? 1)%nat) names
          then Some (map (fun n => hd_error (values_of n m)) names) else None
      end
  | JArr l => if (length l <=? length names)%nat then Some (map Some l ++ repeat None (length names - length l)) else None
  | _ => None
  end.
(** an optional field with [#[serde(default)]] *)
Definition opt_field {A} (f : json -> option A) (o : option json) : option (option A) :=
  match o with None => Some None | Some v => as_option f v end.

(** ** Writing, as [serde_json::to_vec] does *)
Definition hex_digit (n : N) : N := if n <? 10 then n + 48 else n + 87.
Definition esc_byte (c : N) : list N :=
  if c =? 34 then lit "\""" else if c =? 92 then lit "\\"
  else if c =? 8 then lit "\b" else if c =? 12 then lit "\f" else if c =? 10 then lit "\n"
  else if c =? 13 then lit "\r" else if c =? 9 then lit "\t"
  else if c <? 32 then lit "\u00" ++ [hex_digit (c / 16); hex_digit (c mod 16)]
  else [c].
Definition put_string (s : str) : list N := 34 :: flat_map esc_byte (utf8 s) ++ [34].
Definition put_i64 (z : Z) : list N := (if (z <? 0)%Z then [45] else []) ++ print_N (Z.abs_N z).
Definition put_members (l : list (str * list N)) : list N :=
  123 :: join [44] (map (fun p => put_string (fst p) ++ 58 :: snd p) l) ++ [125].
Definition put_array (l : list (list N)) : list N := 91 :: join [44] l ++ [93].
