(** Specification vocabulary for caller identity: base64url (RFC 4648 section 5), the
    JSON grammar (RFC 8259) and DER signatures (X.690), each written from its standard
    and not from the code. *)
From Coq Require Import ZArith NArith Bool String List.
Import ListNotations.
From Verif Require Import Base Text Json Identity.
Open Scope N_scope.
Open Scope list_scope.

(** ** Base64url: the bits of the octets, cut into sixes, padded with zero bits *)
Fixpoint bits (k : nat) (n : N) : list bool :=
  match k with O => [] | S k' => N.testbit n (N.of_nat k') :: bits k' n end.
Definition alphabet : str := lit "ABCDEFGHIJKLMNOPQRSTUVWXYZabcdefghijklmnopqrstuvwxyz0123456789-_".
Definition base64url (s : str) (b : list N) : Prop :=
  exists vs k, Forall (fun v => v < 64) vs /\ s = map (fun v => nth (N.to_nat v) alphabet 0) vs
    /\ (k < 6)%nat /\ flat_map (bits 6) vs = flat_map (bits 8) b ++ repeat false k.

(** ** JSON *)
Definition blanks (b : list N) : Prop := Forall (fun c => In c [32; 9; 10; 13]) b.
Inductive jchars : list junit -> list N -> Prop :=
| C_nil : jchars [] []
| C_raw : forall c u t, 32 <= c -> c <> 34 -> c <> 92 -> jchars u t -> jchars (JB c :: u) (c :: t)
| C_esc : forall e d u t, In (e, d) [(34, 34); (92, 92); (47, 47); (98, 8); (102, 12); (110, 10); (114, 13); (116, 9)] ->
    jchars u t -> jchars (JB d :: u) (92 :: e :: t)
| C_hex : forall h0 h1 h2 h3 a0 a1 a2 a3 u t,
    hex_val h0 = Some a0 -> hex_val h1 = Some a1 -> hex_val h2 = Some a2 -> hex_val h3 = Some a3 ->
    jchars u t -> jchars (JU (a0 * 4096 + a1 * 256 + a2 * 16 + a3) :: u) (92 :: 117 :: h0 :: h1 :: h2 :: h3 :: t).
Definition digits (d : list N) : Prop := d <> [] /\ Forall (fun c => 48 <= c <= 57) d.
Definition jnumber (neg : bool) (ds : list N) (float : bool) (t : list N) : Prop :=
  exists frac expo,
    t = (if neg then [45] else []) ++ ds ++ frac ++ expo
    /\ digits ds /\ (hd 0 ds = 48 -> ds = [48])
    /\ (frac = [] \/ exists f, frac = 46 :: f /\ digits f)
    /\ (expo = [] \/ exists e sg x, expo = e :: sg ++ x /\ In e [101; 69] /\ In sg [[]; [43]; [45]] /\ digits x)
    /\ (float = false <-> frac = [] /\ expo = []).
Inductive jtext : json -> list N -> Prop :=
| T_null : jtext JNull (lit "null")
| T_true : jtext (JBool true) (lit "true")
| T_false : jtext (JBool false) (lit "false")
| T_num : forall neg ds float t, jnumber neg ds float t -> jtext (JNum neg ds float) t
| T_str : forall u t, jchars u t -> jtext (JStr u) (34 :: t ++ [34])
| T_arr0 : forall w, blanks w -> jtext (JArr []) (91 :: w ++ [93])
| T_arr : forall l t, jlist l t -> jtext (JArr l) (91 :: t ++ [93])
| T_obj0 : forall w, blanks w -> jtext (JObj []) (123 :: w ++ [125])
| T_obj : forall l t, jpairs l t -> jtext (JObj l) (123 :: t ++ [125])
with jlist : list json -> list N -> Prop :=
| L_one : forall v w1 t w2, blanks w1 -> jtext v t -> blanks w2 -> jlist [v] (w1 ++ t ++ w2)
| L_more : forall v l w1 t w2 r, blanks w1 -> jtext v t -> blanks w2 -> jlist l r -> jlist (v :: l) (w1 ++ t ++ w2 ++ 44 :: r)
with jpairs : list (list junit * json) -> list N -> Prop :=
| P_one : forall k v w1 kt w2 w3 t w4, blanks w1 -> jchars k kt -> blanks w2 -> blanks w3 -> jtext v t -> blanks w4 ->
    jpairs [(k, v)] (w1 ++ 34 :: kt ++ 34 :: w2 ++ 58 :: w3 ++ t ++ w4)
| P_more : forall k v l w1 kt w2 w3 t w4 r, blanks w1 -> jchars k kt -> blanks w2 -> blanks w3 -> jtext v t -> blanks w4 -> jpairs l r ->
    jpairs ((k, v) :: l) (w1 ++ 34 :: kt ++ 34 :: w2 ++ 58 :: w3 ++ t ++ w4 ++ 44 :: r).
Definition json_document (v : json) (b : list N) : Prop :=
  exists w1 t w2, b = w1 ++ t ++ w2 /\ blanks w1 /\ jtext v t /\ blanks w2.

(** what a string's characters and escapes say: a character stands for itself as UTF-8, or
    is escaped by its UTF-16 code units (RFC 8259 section 7) *)
Inductive spells : list junit -> str -> Prop :=
| S_nil : spells [] []
| S_raw : forall c u s, spells u s -> spells (map JB (utf8_c c) ++ u) (c :: s)
| S_unit : forall c u s, c < 55296 \/ 57344 <= c < 65536 -> spells u s -> spells (JU c :: u) (c :: s)
| S_pair : forall hi lo u s, 0 <= hi < 1024 -> 0 <= lo < 1024 -> spells u s ->
    spells (JU (55296 + hi) :: JU (56320 + lo) :: u) (65536 + hi * 1024 + lo :: s).
(** no escape is half of a pair on its own *)
Inductive paired : list junit -> Prop :=
| Q_nil : paired []
| Q_raw : forall b u, paired u -> paired (JB b :: u)
| Q_unit : forall c u, ~ 55296 <= c <= 57343 -> paired u -> paired (JU c :: u)
| Q_pair : forall h l u, 55296 <= h <= 56319 -> 56320 <= l <= 57343 -> paired u -> paired (JU h :: JU l :: u).

(** ** DER: ECDSA-Sig-Value ::= SEQUENCE { r INTEGER, s INTEGER } *)
Definition be (b : list N) : N := fold_left (fun a c => a * 256 + c) b 0.
(** the content octets of a non-negative INTEGER: not empty, first bit clear, shortest *)
Definition shortest (c : list N) : Prop :=
  match c with
  | [] => False
  | [x] => x < 128
  | x :: y :: _ => x < 128 /\ (x = 0 -> 128 <= y)
  end.
Definition der_integer (n : N) (t : list N) : Prop :=
  exists c, t = 2 :: llen c :: c /\ llen c < 128 /\ is_bytes c = true /\ shortest c /\ be c = n.
Definition der_signature (r s : N) (t : list N) : Prop :=
  exists a b, der_integer r a /\ der_integer s b /\ llen (a ++ b) < 128 /\ t = 48 :: llen (a ++ b) :: a ++ b.

(** ** What a token says *)
(** the one member of that name, or none *)
Definition says (l : list (list junit * json)) (n : str) (o : option json) : Prop :=
  match o with
  | Some v => exists l1 k l2, l = l1 ++ (k, v) :: l2 /\ json_text k = Some n /\ (forall k' v', In (k', v') (l1 ++ l2) -> json_text k' <> Some n)
  | None => forall k v, In (k, v) l -> json_text k <> Some n
  end.
(** the named fields of an object, or the leading fields given as a list *)
Definition has_fields (names : list str) (v : json) (os : list (option json)) : Prop :=
  match v with
  | JObj l => (forall k x, In (k, x) l -> exists n, json_text k = Some n) /\ Forall2 (says l) names os
  | JArr l => length os = length names /\ exists k, os = map Some l ++ repeat None k
  | _ => False
  end.
Definition text (v : json) (s : str) : Prop := exists u, v = JStr u /\ json_text u = Some s.
Definition texts (v : json) (ss : list str) : Prop := exists l, v = JArr l /\ Forall2 text l ss.
Definition whole (v : json) (z : Z) : Prop :=
  exists neg ds, v = JNum neg ds false /\ z = (if neg then - Z.of_N (digits_value ds) else Z.of_N (digits_value ds))%Z
    /\ (-9223372036854775808 <= z <= 9223372036854775807)%Z /\ (neg = true -> z <> 0%Z).
(** absent or null, or read *)
Definition maybe {A} (R : json -> A -> Prop) (o : option json) (r : option A) : Prop :=
  match o with
  | None | Some JNull => r = None
  | Some v => exists a, R v a /\ r = Some a
  end.
Definition number_in {A} (R : json -> A -> Prop) (v : json) (r : option A) : Prop := exists o, has_fields [lit "tn"] v [o] /\ maybe R o r.
Definition flat {A} (o : option (option A)) : option A := match o with Some r => r | None => None end.
Definition header_says (v : json) (h : pheader) : Prop :=
  exists alg typ ppt x5u, has_fields [lit "alg"; lit "typ"; lit "ppt"; lit "x5u"] v [Some alg; typ; ppt; Some x5u]
    /\ text alg (ph_alg h) /\ maybe text typ (ph_typ h) /\ maybe text ppt (ph_ppt h) /\ text x5u (ph_x5u h).
Definition claims_say (v : json) (c : pclaims) : Prop :=
  exists attest orig dest iat origid ro rd,
    has_fields [lit "attest"; lit "orig"; lit "dest"; lit "iat"; lit "origid"] v [attest; orig; dest; iat; origid]
    /\ maybe (fun v l => text v (match l with LA => lit "A" | LB => lit "B" | LC => lit "C" end)) attest (pc_attest c)
    /\ maybe (number_in text) orig ro /\ pc_orig c = flat ro
    /\ maybe (number_in texts) dest rd /\ pc_dest c = match flat rd with Some l => l | None => [] end
    /\ maybe whole iat (pc_iat c) /\ maybe text origid (pc_origid c).
Definition token_says (t : str) (p : passport) : Prop :=
  exists a c s hb cb hv cv,
    t = a ++ lit "." ++ c ++ lit "." ++ s /\ pp_input p = a ++ lit "." ++ c
    /\ base64url a hb /\ base64url c cb /\ base64url s (pp_sig p) /\ is_bytes (pp_sig p) = true
    /\ is_bytes hb = true /\ json_document hv hb /\ header_says hv (pp_header p)
    /\ is_bytes cb = true /\ json_document cv cb /\ claims_say cv (pp_claims p).

(** ** The Identity header: a token and parameters, blanks allowed around each piece *)
Record piece := mkPiece { b1 : str; key : str; b2 : str; b3 : str; val : str; b4 : str }.
Definition piece_text (p : piece) : str := lit ";" ++ b1 p ++ key p ++ b2 p ++ lit "=" ++ b3 p ++ val p ++ b4 p.
Definition blank (s : str) : Prop := forallb is_ws s = true.
(** does not begin or end with a blank *)
Definition bare (s : str) : Prop := (forall c r, s = c :: r -> is_ws c = false) /\ (forall r c, s = r ++ [c] -> is_ws c = false).
Definition piece_ok (p : piece) : Prop :=
  blank (b1 p) /\ blank (b2 p) /\ blank (b3 p) /\ blank (b4 p) /\ bare (key p) /\ bare (val p)
  /\ key p <> [] /\ ~ In 59 (key p) /\ ~ In 61 (key p) /\ ~ In 59 (val p).
(** the last parameter of that name, whatever its case *)
Definition last_param (n : str) (ps : list piece) (o : option str) : Prop :=
  match o with
  | Some v => exists l1 p l2, ps = l1 ++ p :: l2 /\ eq_ic (key p) n = true /\ v = val p /\ forall q, In q l2 -> eq_ic (key q) n = false
  | None => forall q, In q ps -> eq_ic (key q) n = false
  end.
(** a value with its double quotes taken off *)
Definition unquoted (v r : str) : Prop := v = [34] ++ r ++ [34] \/ r = v /\ forall x, v <> [34] ++ x ++ [34].
Definition bracketed (v x : str) : Prop := v = [60] ++ x ++ [62].
Definition via {A B} (R : A -> B -> Prop) (o : option A) (r : option B) : Prop :=
  match o, r with Some a, Some b => R a b | None, None => True | _, _ => False end.
