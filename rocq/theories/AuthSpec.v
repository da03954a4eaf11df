(** Vocabulary for the digest authentication properties. *)
From Coq Require Import String NArith Bool List.
Import ListNotations.
From Verif Require Import Base Headers Method RateLimit Auth.
Open Scope N_scope.

(** ** RFC 7616, written from the RFC *)
Section Rfc.
  Variable H : hash_fn -> list N -> str.
  Definition hs (al : algorithm) (parts : list str) : str := H (al_hash al) (as_bytes (join (lit ":") parts)).
  (** section 3.4.2: A1 *)
  Definition rfc_ha1 (al : algorithm) (user realm pass nonce cnonce : str) : str :=
    if al_sess al then hs al [hs al [user; realm; pass]; nonce; cnonce] else hs al [user; realm; pass].
  (** section 3.4.3: A2 *)
  Definition rfc_ha2 (al : algorithm) (q : qop) (mt uri : str) (body : list N) : str :=
    match q with
    | QAuth => hs al [mt; uri]
    | QAuthInt => hs al [mt; uri; H (al_hash al) body]
    end.
  (** section 3.4.1: the request digest *)
  Definition rfc_response (al : algorithm) (q : qop) (user realm pass mt uri nonce nc cnonce : str)
    (body : list N) : str :=
    hs al [rfc_ha1 al user realm pass nonce cnonce; nonce; nc; cnonce; qop_str q; rfc_ha2 al q mt uri body].
End Rfc.

(** the Digest parameters a request presents *)
Definition presents (a : auth) (h : headers) (name value : str) : Prop :=
  exists v ah, hget (auth_header_name a) h = Some v /\ parse_authorization v = Some ah
               /\ lookup str_eqb name (ah_params ah) = Some value.

(** text that can stand between quotes without escaping *)
Definition quotable (mx : N) (s : str) : Prop :=
  mem 34 s = false /\ mem 92 s = false /\ existsb is_control s = false /\ blen s <= mx.

(** the hash gives hex text of reasonable length *)
Definition hexy (H : hash_fn -> list N -> str) : Prop :=
  forall f b, forallb (fun c => is_digit c || in_range 97 102 c) (H f b) = true /\ blen (H f b) <= 256.

(** the nonce is known and alive, and this count may be used with it: it is new,
    at most 1000 above the last one seen, and the nonce, if already used, was
    used recently *)
Definition usable (m : nmgr) (k : str) (now nc : N) : Prop :=
  exists e, lookup str_eqb k (nm_nonces m) = Some e /\ now <= nn_created e + nn_ttl e
    /\ nn_last_nc e < nc /\ nc <= nn_last_nc e + 1000
    /\ (nn_last_nc e = 0 \/ now <= nn_used e + nm_age m).

(** an Authentication-Info value whose fields need no escaping *)
Definition info_ok (i : auth_info) : Prop :=
  let plain s := mem 34 s = false /\ mem 92 s = false in
  plain (ai_rspauth i)
  /\ (forall c, ai_cnonce i = Some c -> plain c)
  /\ (forall c, ai_next i = Some c -> plain c)
  /\ (forall c, ai_nc i = Some c -> mem 34 c = false /\ mem 44 c = false /\ trim c = c).
(** ** Histories *)
Section Runs.
  Variable H : hash_fn -> list N -> str.
  Fixpoint auth_run (a : auth) (h : list (N * auth_op)) : auth :=
    match h with [] => a | x :: r => auth_run (auth_step H a x) r end.

  (** an accepted attempt: time, nonce, count and request *)
  Record accept := mkAcc { ac_time : N; ac_nonce : str; ac_count : N; ac_request : areq }.
  (** does this event authenticate a request, and with what *)
  Definition accepts (a : auth) (x : N * auth_op) (e : accept) : Prop :=
    match snd x with
    | AVerify rq h =>
        snd (verify H a (fst x) rq h) = Some true
        /\ ac_time e = fst x /\ ac_request e = rq
        /\ presents a h (lit "nonce") (ac_nonce e)
        /\ exists txt, presents a h (lit "nc") txt /\ parse_hex_u32 txt = Some (ac_count e)
    | _ => False
    end.
  (** the event offers this nonce with this count, whatever the outcome *)
  Definition offers (a : auth) (x : N * auth_op) (k : str) (c : N) : Prop :=
    exists h txt, (match snd x with
                   | AVerify _ h' => h = h'
                   | AInfo rq _ _ => h = aq_headers rq
                   | _ => False
                   end)
      /\ presents a h (lit "nonce") k /\ presents a h (lit "nc") txt /\ parse_hex_u32 txt = Some c.
End Runs.

Definition token_of (x : N * auth_op) : list str :=
  match snd x with AChallenge tok _ => [tok] | _ => [] end.
(** the random nonces a history draws *)
Definition tokens (h : list (N * auth_op)) : list str := flat_map token_of h.

Definition no_nonces (a : auth) : Prop := nm_nonces (au_nonces a) = [].

(** ** Rate limiting of attempts *)
(** the event is a call to [verify] from the source [k] *)
Definition verify_from (k : str) (x : N * auth_op) : bool :=
  match snd x with
  | AVerify _ h => match rate_key h with Some k' => str_eqb k k' | None => false end
  | _ => false
  end.
(** how many calls to [verify] from [k] are answered, yes or no, and not
    refused with an error *)
Fixpoint answered (H : hash_fn -> list N -> str) (k : str) (a : auth) (h : list (N * auth_op)) : N :=
  match h with
  | [] => 0
  | x :: r =>
      (match snd x with
       | AVerify rq hd => if verify_from k x && is_some (snd (verify H a (fst x) rq hd)) then 1 else 0
       | _ => 0
       end) + answered H k (auth_step H a x) r
  end.
(** the clock never goes back *)
Fixpoint in_order (from : N) (h : list (N * auth_op)) : Prop :=
  match h with [] => True | (t, _) :: r => from <= t /\ in_order t r end.
