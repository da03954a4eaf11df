(** Vocabulary for the registrar's properties. *)
From Coq Require Import NArith Bool String List.
Import ListNotations.
From Verif Require Import Base Headers Text Uri Msg AnyUri Registrar.
Open Scope N_scope.

(** ** A reference for the location store: for each address of record and
    contact the last binding that was stored successfully and not removed
    since.  It forgets nothing when time passes. *)
Definition reference := str -> str -> option (N * binfo).
Definition no_bindings : reference := fun _ _ => None.
Definition ref_set (r : reference) (a c : str) (v : option (N * binfo)) : reference :=
  fun a' c' => if str_eqb a a' then if str_eqb c c' then v else r a' c' else r a' c'.
Definition ref_clear (r : reference) (a : str) : reference :=
  fun a' c' => if str_eqb a a' then None else r a' c'.
(** [accepted]: whether the call returned [Ok] *)
Definition ref_step (r : reference) (now : N) (o : sop) (accepted : bool) : reference :=
  match o with
  | SUpsert b => if accepted then ref_set r (b_aor b) (b_contact b) (Some (now + b_expires b, b_info b)) else r
  | SRemove a c => ref_set r a c None
  | SRemoveAll a => ref_clear r a
  | SLookup _ | SCleanup => r
  end.
(** the answer of a call *)
Definition sop_accepted (st : store) (x : N * sop) : bool :=
  match snd x with SUpsert b => snd (upsert (fst x) b st) | _ => true end.
(** store and reference after a list of timed calls *)
Fixpoint both_run (st : store) (r : reference) (l : list (N * sop)) : store * reference :=
  match l with
  | [] => (st, r)
  | x :: l => both_run (sop_step st x) (ref_step r (fst x) (snd x) (sop_accepted st x)) l
  end.
(** the clock never goes back *)
Fixpoint clock_from (t : N) (l : list (N * sop)) : Prop :=
  match l with [] => True | x :: l => t <= fst x /\ clock_from (fst x) l end.
(** the time of the last call *)
Definition last_time (l : list (N * sop)) : N := fold_left (fun _ x => fst x) l 0.

(** what any later lookup sees *)
Definition lookup_at (t : N) (aor : str) (st : store) : list binding := snd (lookup_aor t aor st).
Definition same_bindings (now : N) (st st' : store) : Prop :=
  forall t aor, now <= t -> lookup_at t aor st' = lookup_at t aor st.
(** a store that a program can have built *)
Definition reachable (st : store) : Prop := exists ops, st = sop_run [] ops.

(** the user part of a SIP URI, or the number of a tel URI without its visual
    separators *)
Definition owner_of (u : any_uri) : option str :=
  match u with ASip u => u_user u | ATel t => Some (strip_seps (t_number t)) | AAbs _ => None end.
(** the address of record a REGISTER is about: the To URI, normalised *)
Definition about (hs : headers) (to : any_uri) (aor : str) : Prop :=
  exists v na, header_of hs (lit "To") = Some v /\ parse_name_addr v = Some na /\ na_uri na = to
               /\ normalize_aor to = Some aor.
(** nothing that a lookup from [now] on can see about this contact changed *)
Definition same_contact (now : N) (st st' : store) (aor c : str) : Prop :=
  forall t b, now <= t -> b_contact b = c -> (In b (lookup_at t aor st') <-> In b (lookup_at t aor st)).
(** the request uses the wildcard contact *)
Definition wildcard (hs : headers) : Prop := exists k, In k (contact_headers hs) /\ trim k = lit "*".

(** the expiry asked for a contact, in seconds: its own parameter, else the
    Expires header, else the registrar's default *)
Definition asked (rc : rconfig) (hs : headers) (k : str) (secs : N) : Prop :=
  (exists v, contact_param k (lit "expires") = Some (Some v) /\ parse_uint u64_max v = Some secs)
  \/ (contact_param k (lit "expires") = Some None
      /\ match hget (lit "Expires") hs with
         | Some v => parse_uint u64_max v = Some secs
         | None => secs = rc_default rc
         end).
(** [k] is the last contact of the request for the URI [c] *)
Definition last_for (hs : headers) (k c : str) : Prop :=
  exists pre post, contact_headers hs = pre ++ k :: post /\ contact_uri k = Some c
                   /\ forall k', In k' post -> contact_uri k' <> Some c.
(** the challenge of the authenticator is not a success *)
Definition challenging (an : authn) : Prop := forall r, an <> AuthRejected (Answered 200 r).

(** ** Tel URI texts *)
(** the parts of a tel URI text *)
Definition tel_text (num : str) (ps : list str) : str := lit "tel:" ++ join [59] (num :: ps).
(** a parameter that is not empty *)
Definition nonempty_s (p : str) : bool := match p with [] => false | _ => true end.
(** a raw parameter up to the letter case of its name and, for the phone
    context, up to letter case (a domain) or visual separators (a number) *)
Definition norm_param (p : str) : str * option str :=
  match split_once 61 p with
  | Some (k, v) => (lower k, Some (if is_context_key k then tel_context_norm v else v))
  | None => (lower p, None)
  end.
Definition norm_params (ps : list str) : list (str * option str) := map norm_param (filter nonempty_s ps).
