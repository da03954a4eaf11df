(** What capabilities and preferences mean (specification only). *)
From Coq Require Import NArith ZArith QArith Bool String List.
Import ListNotations.
From Verif Require Import Base Prefs.
Open Scope N_scope.
Open Scope list_scope.

(** a value that can be told in a parameter of a Contact header *)
Definition sendable {F} (ops : f64_ops F) (t : tag) (v : value F) : Prop :=
  match v with
  | VBool _ => True
  | VTok s => is_list t = false /\ f_read ops s = None
  | VList l => is_list t = true /\ l <> []
  | VStr _ => is_list t = false
  | VNum n => is_list t = false /\ f_read ops (f_write ops n) = Some n /\ trim (f_write ops n) = f_write ops n /\ ~ In 34 (f_write ops n)
  end.
(** the value wanted is satisfied by the value that is there *)
Definition satisfies {F} (ops : f64_ops F) (want have : value F) : Prop :=
  match want, have with
  | VBool a, VBool b => a = b
  | VTok a, VTok b => lower a = lower b
  | VList a, VList b => (List.length a <= 20)%nat /\ (List.length b <= 20)%nat /\ forall x, In x a -> exists y, In y b /\ lower x = lower y
  | VStr a, VStr b => a = b
  | VNum a, VNum b => f_finite ops a = true /\ f_finite ops b = true /\ f_close ops a b = true
  | _, _ => False
  end.
Definition met {F} (ops : f64_ops F) (have : caps F) (f : tag * value F) : Prop := exists w, cget (fst f) have = Some w /\ satisfies ops (snd f) w.
(** how many of the features are met *)
Inductive met_count {F} (ops : f64_ops F) (have : caps F) : caps F -> N -> Prop :=
| met_nil : met_count ops have [] 0
| met_yes : forall f r n, met ops have f -> met_count ops have r n -> met_count ops have (f :: r) (n + 1)
| met_no : forall f r n, ~ met ops have f -> met_count ops have r n -> met_count ops have (f :: r) n.
(** the score of one Accept-Contact *)
Definition scores {F} (ops : f64_ops F) (a : accept_contact F) (have : caps F) (advertised : bool) (s : Q) : Prop :=
  (ac_features a = [] /\ s == 1)%Q
  \/ (ac_features a <> [] /\ ac_explicit a = true /\ advertised = false /\ s == 0)%Q
  \/ (ac_features a <> [] /\ (ac_explicit a = true -> advertised = true)
      /\ exists n, met_count ops have (ac_features a) n
         /\ if ac_require a && negb (n =? llen (ac_features a)) then (s == 0)%Q else (s == inject_Z (Z.of_N n) / inject_Z (Z.of_N (llen (ac_features a))))%Q).
(** a contact that the caller does not want *)
Definition refused {F} (ops : f64_ops F) (acs : list (accept_contact F)) (rcs : list (caps F)) (c : contact) (have : caps F) : Prop :=
  (exists fs, In fs rcs /\ fs <> [] /\ sc_explicit c = true /\ forall f, In f fs -> met ops have f)
  \/ (exists a, In a acs /\ ac_require a = true /\ scores ops a have (sc_explicit c) 0).
(** the average of the scores, if there are any *)
Definition averages {F} (ops : f64_ops F) (acs : list (accept_contact F)) (c : contact) (have : caps F) (q : Q) : Prop :=
  (acs = [] /\ q = sc_qa c)
  \/ (acs <> [] /\ exists l, Forall2 (fun a s => scores ops a have (sc_explicit c) s) acs l /\ (q == fold_right Qplus 0 l / inject_Z (Z.of_N (llen acs)))%Q).
Definition verdict {F} (ops : f64_ops F) (acs : list (accept_contact F)) (rcs : list (caps F)) (p : contact * caps F) (o : option contact) : Prop :=
  (o = None /\ refused ops acs rcs (fst p) (snd p))
  \/ (~ refused ops acs rcs (fst p) (snd p) /\ exists q, averages ops acs (fst p) (snd p) q /\ o = Some (mkContact (sc_uri (fst p)) (sc_q (fst p)) q (sc_explicit (fst p)))).
(** a may come before b *)
Definition not_after (a b : contact) : Prop := (sc_q b < sc_q a)%Q \/ ((sc_q b == sc_q a)%Q /\ (sc_qa b <= sc_qa a)%Q).
(** the two contacts are preferred equally *)
Definition tied (a b : contact) : bool := Qeq_bool (sc_q a) (sc_q b) && Qeq_bool (sc_qa a) (sc_qa b).
(** of the words of [yes] and [no] the last is ... *)
Definition last_says (yes no : str) (ws : list str) (o : option choice) : Prop :=
  match o with
  | None => forall w, In w ws -> lower w <> yes /\ lower w <> no
  | Some ch => exists a w b, ws = a ++ w :: b /\ lower w = (match ch with Yes => yes | No => no end) /\ forall x, In x b -> lower x <> yes /\ lower x <> no
  end.
(** values that may be sent *)
Definition token (s : str) : Prop := s <> [] /\ blen s <= 64 /\ forall c, In c s -> (48 <= c <= 57 \/ 65 <= c <= 90 \/ 97 <= c <= 122) \/ In c (lit "-.!%*_+`'~").
Definition allowed {F} (ops : f64_ops F) (v : value F) : Prop :=
  match v with
  | VBool _ => True
  | VTok t => token t
  | VList l => (List.length l <= 20)%nat /\ forall t, In t l -> token t
  | VStr s => blen s <= 256 /\ forall c, In c s -> 32 <= c /\ c <> 127 /\ c <> 34
  | VNum n => f_finite ops n = true
  end.
