(** Vocabulary for the statements about forked requests: what was received and
    what was forwarded, read off the log of a response context. *)
From Coq Require Import NArith Bool String List.
Import ListNotations.
From Verif Require Import Base Headers Msg ProxyFork.
Open Scope N_scope.
Open Scope list_scope.

Definition class (r : resp) : N := p_code r / 100.
Definition final (r : resp) : Prop := 200 <= p_code r.

(** the final responses received, in order *)
Definition finals (l : list event) : list resp :=
  flat_map (fun e => match e with Got _ r => if is_final r then [r] else [] | _ => [] end) l.
(** the branches on which final responses were received, in order *)
Definition finished (l : list event) : list str :=
  flat_map (fun e => match e with Got b r => if is_final r then [b] else [] | _ => [] end) l.
(** the branches created *)
Definition added (l : list event) : list str :=
  flat_map (fun e => match e with Added b => [b] | _ => [] end) l.
(** the final responses forwarded upstream, in order *)
Definition sent_finals (l : list event) : list resp :=
  flat_map (fun e => match e with Sent _ r => if is_final r then [r] else [] | _ => [] end) l.
(** those of them that are not 2xx *)
Definition sent_failures (l : list event) : list resp := filter (fun r => negb (is_2xx r)) (sent_finals l).
(** the last response received on a branch since it was created *)
Definition last_resp (b : str) (l : list event) : option resp :=
  fold_left (fun acc e => match e with
                          | Added b' => if str_eqb b b' then None else acc
                          | Got b' r => if str_eqb b b' then Some r else acc
                          | Sent _ _ => acc end) l None.

(** preference among final responses: 6xx, then 2xx, then the lower class *)
Definition rank (r : resp) : N :=
  if class r =? 6 then 0 else if class r =? 2 then 1 else class r.
(** [r] is a best one of [rs]; among equals it is the first, except that a 2xx
    or 6xx is superseded by a later one of its class *)
Definition best_of (rs : list resp) (r : resp) : Prop :=
  exists a b, rs = a ++ r :: b
    /\ (forall x, In x a -> if rank r <=? 1 then rank r <= rank x else rank r < rank x)
    /\ (forall x, In x b -> if rank r <=? 1 then rank r < rank x else rank r <= rank x).

(** the responses that ask for credentials *)
Definition challenge (r : resp) : bool := (p_code r =? 401) || (p_code r =? 407).
Definition auth_header (h : header) : Prop := fst h = WWW \/ fst h = PRX.
(** [r] is [r0] with challenges taken from the responses [from] added *)
Definition adds_challenges (from : resp -> Prop) (r0 r : resp) : Prop :=
  p_code r = p_code r0 /\ p_reason r = p_reason r0 /\ p_body r = p_body r0
  /\ exists extra, p_headers r = p_headers r0 ++ extra
     /\ forall h, In h extra -> auth_header h
        /\ exists x, from x /\ challenge x = true /\ In (snd h) (hget_all (fst h) (p_headers x)).

(** what holds of every event together with the events before it *)
Definition always (Q : list event -> event -> Prop) (l : list event) : Prop :=
  forall l1 e l2, l = l1 ++ e :: l2 -> Q l1 e.

(** a well-behaved environment: branch ids are fresh, every branch gives at most
    one final response *)
Definition one_final_each (l : list event) : Prop := NoDup (added l) /\ NoDup (finished l).
(** all branches are created before the first final response *)
Definition forked_at_once (l : list event) : Prop :=
  always (fun l1 e => match e with Added _ => finals l1 = [] | _ => True end) l.
(** every branch created has given a final response *)
Definition all_finished (l : list event) : Prop := forall b, In b (added l) -> In b (finished l).
(** the provisional responses received and forwarded, in order *)
Definition prov_got (l : list event) : list resp :=
  flat_map (fun e => match e with Got _ r => if is_final r then [] else [r] | _ => [] end) l.
Definition prov_sent (l : list event) : list resp :=
  flat_map (fun e => match e with Sent _ r => if is_final r then [] else [r] | _ => [] end) l.
(** the responses forwarded at once, not waiting for the other branches *)
Definition sent_now (l : list event) : list resp :=
  flat_map (fun e => match e with Sent Now r => [r] | _ => [] end) l.
(** where a response recorded on a branch comes from: the program passed it in,
    or Timer C or a transport error made it up *)
Definition origin (q : req) (labs : list label) (b : str) (r : resp) : Prop :=
  In (Start (PResp b r)) labs
  \/ (In (Elapse b) labs /\ r = synthetic q 408 (lit "Request Timeout"))
  \/ (In (Start (PError b)) labs /\ r = synthetic q 503 (lit "Service Unavailable")).

(** how a branch stands, read off the log of calls made one after the other: created,
    answered provisionally, answered finally, or given up because another branch won.
    The first component is the branch of the response just received. *)
Inductive standing := Created | Ringing | Answered | GivenUp.
Definition stand_step (b : str) (s : str * option standing) (e : event) : str * option standing :=
  let (w, st) := s in
  match e with
  | Added b' => (w, if str_eqb b b' then Some Created else st)
  | Got b' r => (b', if str_eqb b b' then
                       match st with
                       | None => None
                       | Some x => Some (if 200 <=? p_code r then Answered else if 100 <=? p_code r then Ringing else x)
                       end
                     else st)
  | Sent Now _ => (w, if str_eqb b w then st
                      else match st with Some Created | Some Ringing => Some GivenUp | _ => st end)
  | Sent _ _ => s
  end.
Definition stands (b : str) (l : list event) : option standing := snd (fold_left (stand_step b) l ([], None)).
