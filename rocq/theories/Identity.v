(** Model of caller identity: crates/sip-identity/src. The ECDSA and certificate
    operations of the crates [ring] and [webpki] are arguments. Error texts are
    dropped. *)
From Coq Require Import ZArith NArith Bool String List.
Import ListNotations.
From Verif Require Import Base Text Json.
Open Scope N_scope.
Open Scope list_scope.

(** error.rs:15-35 *)
Inductive id_error := HeaderTooLong | EmptyToken | MalformedJws (parts : N) | BadBase64 | BadJson | MissingX5u | BadAttest | InvalidParam.

(** passport.rs:20-57 [AttestationLevel] *)
Inductive level := LA | LB | LC.
Definition level_parse (s : str) : option level :=
  if str_eqb s (lit "A") then Some LA else if str_eqb s (lit "B") then Some LB else if str_eqb s (lit "C") then Some LC else None.
Definition level_str (l : level) : str := match l with LA => lit "A" | LB => lit "B" | LC => lit "C" end.

(** passport.rs:58-102 *)
Record pheader := mkPHeader { ph_alg : str; ph_typ : option str; ph_ppt : option str; ph_x5u : str }.
Record pclaims := mkPClaims { pc_attest : option level; pc_orig : option str; pc_dest : list str; pc_iat : option Z; pc_origid : option str }.
Record passport := mkPassport { pp_header : pheader; pp_claims : pclaims; pp_input : list N; pp_sig : list N }.

(** passport.rs:105-114 [RawHeader]: alg, typ, ppt, x5u *)
Definition raw_header (v : json) : option (str * option str * option str * option str) :=
  match fields [lit "alg"; lit "typ"; lit "ppt"; lit "x5u"] v with
  | Some [Some alg; typ; ppt; x5u] =>
      match as_string alg, opt_field as_string typ, opt_field as_string ppt, opt_field as_string x5u with
      | Some a, Some t, Some p, Some x => Some (a, t, p, x)
      | _, _, _, _ => None
      end
  | _ => None
  end.
(** passport.rs:130-140 [Orig], [Dest] *)
Definition one_tn {A} (f : json -> option A) (v : json) : option (option A) :=
  match fields [lit "tn"] v with Some [o] => opt_field f o | _ => None end.
(** passport.rs:116-128 [RawClaims]: attest, orig, dest, iat, origid *)
Definition raw_claims (v : json) : option (option str * option (option str) * option (option (list str)) * option Z * option str) :=
  match fields [lit "attest"; lit "orig"; lit "dest"; lit "iat"; lit "origid"] v with
  | Some [attest; orig; dest; iat; origid] =>
      match opt_field as_string attest, opt_field (one_tn as_string) orig, opt_field (one_tn as_strings) dest, opt_field as_i64 iat, opt_field as_string origid with
      | Some a, Some o, Some d, Some i, Some g => Some (a, o, d, i, g)
      | _, _, _, _, _ => None
      end
  | _ => None
  end.
Definition oflat {A} (o : option (option A)) : option A := match o with Some x => x | None => None end.

(** passport.rs:147-206 [Passport::decode] *)
Definition decode (token : str) : result passport id_error :=
  match split_on 46 token with
  | [p; c; s] =>
      match b64_dec p, b64_dec c, b64_dec s with
      | Some hj, Some cj, Some sig =>
          match obind (json_parse hj) raw_header, obind (json_parse cj) raw_claims with
          | Some (alg, typ, ppt, x5u), Some (attest, orig, dest, iat, origid) =>
              match x5u with
              | None => Err MissingX5u
              | Some x =>
                  match (match attest with None => Some None | Some a => option_map Some (level_parse a) end) with
                  | None => Err BadAttest
                  | Some lv =>
                      Ok (mkPassport (mkPHeader alg typ ppt x)
                            (mkPClaims lv (oflat orig) (match oflat dest with Some l => l | None => [] end) iat origid)
                            (utf8 (p ++ [46] ++ c)) sig)
                  end
              end
          | _, _ => Err BadJson
          end
      | _, _, _ => Err BadBase64
      end
  | l => Err (MalformedJws (llen l))
  end.

(** header.rs:23 *)
Definition MAX_ID_HEADER : N := 8192.
(** header.rs:25-40 [IdentityHeader] *)
Record id_header := mkIdHeader { ih_passport : passport; ih_info : option str; ih_alg : option str; ih_ppt : option str; ih_token : str }.
(** [str::strip_prefix(c)], then [strip_suffix(d)] *)
Definition strip_ends (c d : N) (s : str) : option str :=
  match s with
  | x :: r => if x =? c then match rev r with y :: q => if y =? d then Some (rev q) else None | [] => None end else None
  | [] => None
  end.
(** header.rs:98-104, 107-111 *)
Definition strip_angle (s : str) : option str := option_map trim (strip_ends 60 62 (trim s)).
Definition unquote (s : str) : str := match strip_ends 34 34 s with Some t => t | None => s end.
(** header.rs:63-84: the parameters, the last of a name winning *)
Fixpoint id_params (segs : list str) (info alg ppt : option str) : option (option str * option str * option str) :=
  match segs with
  | [] => Some (info, alg, ppt)
  | seg :: r =>
      match trim seg with
      | [] => id_params r info alg ppt
      | seg' =>
          match split_once 61 seg' with
          | None => id_params r info alg ppt
          | Some (k, v) =>
              let key := lower (trim k) in
              let val := trim v in
              if str_eqb key (lit "info") then
                match strip_angle val with Some i => id_params r (Some i) alg ppt | None => None end
              else if str_eqb key (lit "alg") then id_params r info (Some (unquote val)) ppt
              else if str_eqb key (lit "ppt") then id_params r info alg (Some (unquote val))
              else id_params r info alg ppt
          end
      end
  end.
(** header.rs:46-93 [IdentityHeader::parse] *)
Definition id_parse (value : str) : result id_header id_error :=
  if MAX_ID_HEADER <? blen value then Err HeaderTooLong
  else match split_on 59 value with
       | [] => Err EmptyToken
       | t :: segs =>
           match trim t with
           | [] => Err EmptyToken
           | token =>
               match decode token with
               | Err e => Err e
               | Ok p =>
                   match id_params segs None None None with
                   | None => Err InvalidParam
                   | Some (info, alg, ppt) => Ok (mkIdHeader p info alg ppt token)
                   end
               end
           end
       end.

(** verify.rs:32-49 *)
Inductive verify_error := UnsupportedAlg | MalformedKey (len : N) | SignatureInvalid | CertParse | ChainInvalid.
(** verify.rs:82-96 [verify_signature]; [ecdsa key message signature] is ring's
    ECDSA_P256_SHA256_FIXED *)
Definition verify_signature (ecdsa : list N -> list N -> list N -> bool) (p : passport) (key : list N) : result unit verify_error :=
  if negb (str_eqb (ph_alg (pp_header p)) (lit "ES256")) then Err UnsupportedAlg
  else if negb (llen key =? 65) || negb (match key with k :: _ => k =? 4 | [] => false end) then Err (MalformedKey (llen key))
  else if ecdsa key (pp_input p) (pp_sig p) then Ok tt else Err SignatureInvalid.

(** chain.rs:143-160 [der_unsigned_integer] *)
Fixpoint strip_zeros (b : list N) : list N :=
  match b with
  | x :: (_ :: _) as r => if x =? 0 then strip_zeros r else b
  | _ => b
  end.
Definition der_uint (be : list N) : list N :=
  let v := strip_zeros be in
  let pad := match v with x :: _ => 128 <=? x | [] => false end in
  2 :: (llen v + (if pad then 1 else 0)) mod 256 :: (if pad then [0] else []) ++ v.
(** chain.rs:127-138 [jose_es256_to_der] *)
Definition jose_to_der (sig : list N) : option (list N) :=
  if negb (llen sig =? 64) then None
  else let body := der_uint (firstn 32 sig) ++ der_uint (skipn 32 sig) in
       Some (48 :: llen body mod 256 :: body).
(** The certificate operations of webpki: reading a leaf and an anchor, building a
    path at a time, checking a DER-coded signature under a leaf *)
Record pki := mkPki {
  cert : Type; anchor : Type;
  read_leaf : list N -> option cert;
  read_anchor : list N -> option anchor;
  path_ok : cert -> list anchor -> list (list N) -> N -> bool;
  leaf_verifies : cert -> list N -> list N -> bool }.
Fixpoint all_some {A B} (f : A -> option B) (l : list A) : option (list B) :=
  match l with [] => Some [] | x :: r => match f x, all_some f r with Some y, Some t => Some (y :: t) | _, _ => None end end.
(** chain.rs:62-119 [verify_with_chain] *)
Definition verify_with_chain (w : pki) (p : passport) (leaf : list N) (inter anchors : list (list N)) (now : N) : result unit verify_error :=
  if negb (str_eqb (ph_alg (pp_header p)) (lit "ES256")) then Err UnsupportedAlg
  else match read_leaf w leaf with
       | None => Err CertParse
       | Some ee =>
           match all_some (read_anchor w) anchors with
           | None => Err CertParse
           | Some an =>
               if negb (path_ok w ee an inter now) then Err ChainInvalid
               else match jose_to_der (pp_sig p) with
                    | None => Err SignatureInvalid
                    | Some d => if leaf_verifies w ee (pp_input p) d then Ok tt else Err SignatureInvalid
                    end
           end
       end.

(** sign.rs:34-42, 57-72 *)
Inductive sign_error := MissingDest | MissingOrig | SigningFailed.
Record params := mkParams { pr_x5u : str; pr_attest : level; pr_orig : str; pr_dest : list str; pr_iat : Z; pr_origid : option str }.
(** sign.rs:74-101: the JSON of the protected header and of the claims *)
Definition header_json (x5u : str) : list N :=
  put_members [(lit "alg", put_string (lit "ES256")); (lit "ppt", put_string (lit "shaken")); (lit "typ", put_string (lit "passport")); (lit "x5u", put_string x5u)].
Definition claims_json (a : params) : list N :=
  put_members ([(lit "attest", put_string (level_str (pr_attest a)));
                (lit "dest", put_members [(lit "tn", put_array (map put_string (pr_dest a)))]);
                (lit "iat", put_i64 (pr_iat a));
                (lit "orig", put_members [(lit "tn", put_string (pr_orig a))])]
               ++ match pr_origid a with Some g => [(lit "origid", put_string g)] | None => [] end).
(** sign.rs:126-175 [sign]: the token; [signer] is the key's ECDSA operation with its
    random nonce. Serialising these types cannot fail. *)
Definition sign (a : params) (signer : list N -> option (list N)) : result str sign_error :=
  if (length (pr_dest a) =? 0)%nat then Err MissingDest
  else if (length (pr_orig a) =? 0)%nat then Err MissingOrig
  else let p := b64_enc (header_json (pr_x5u a)) in
       let c := b64_enc (claims_json a) in
       match signer (utf8 (p ++ [46] ++ c)) with
       | None => Err SigningFailed
       | Some sig => Ok (p ++ [46] ++ c ++ [46] ++ b64_enc sig)
       end.
(** sign.rs:115-117 [identity_header_value] *)
Definition header_value (token x5u : str) : str := token ++ lit ";info=<" ++ x5u ++ lit ">;alg=ES256;ppt=shaken".
