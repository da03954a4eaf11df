(** CPIM messages: what the interface can build and what a reader should see
    (specification only). *)
From Coq Require Import NArith Bool String List.
Import ListNotations.
From Verif Require Import Base Text Cpim.
Open Scope N_scope.
Open Scope list_scope.

(** headers and messages that a caller can build *)
Inductive header_built : header -> Prop :=
| hb_new : forall v h, header_new v = Some h -> header_built h
| hb_param : forall h n v h', header_built h -> with_param h n v = Some h' -> header_built h'.
Inductive built : cpim -> Prop :=
| b_new : forall t body m, cpim_new t body = Some m -> built m
| b_body : forall m body m', built m -> set_body m body = Some m' -> built m'
| b_set : forall m n v m', built m -> set_header m n v = Some m' -> built m'
| b_add : forall m n v m', built m -> add_header m n v = Some m' -> built m'
| b_obj : forall m n h m', built m -> header_built h -> add_header_obj m n h = Some m' -> built m'
| b_content : forall m n v m', built m -> add_content_header m n v = Some m' -> built m'.

(** a text of at most [n] bytes that holds neither control characters nor any of [no] *)
Definition clean (n : N) (no : str) (s : str) : Prop := blen s <= n /\ forall c, In c s -> 32 <= c /\ c <> 127 /\ ~ In c no.
Definition good_name (s : str) : Prop := s <> [] /\ clean 128 (lit ":;=\""") s.
Definition good_param (p : str * str) : Prop := fst p <> [] /\ clean 64 (lit ";=\""") (fst p) /\ clean 256 (lit ";\""") (snd p).
Definition good_header (h : header) : Prop :=
  blen (h_value h) <= 1024 /\ (List.length (h_params h) <= 10)%nat /\ sorted_keys (h_params h) /\ forall p, In p (h_params h) -> good_param p.
(** within the limits: every list is sorted by name and without doubles *)
Definition within (m : cpim) : Prop :=
  sorted_keys (c_headers m) /\ (forall n hs, In (n, hs) (c_headers m) -> good_name n /\ hs <> [] /\ forall h, In h hs -> good_header h)
  /\ (List.length (flat_map snd (c_headers m)) <= 50)%nat
  /\ (c_type m <> [] /\ clean 256 [] (c_type m))
  /\ sorted_keys (c_content m) /\ (forall n v, In (n, v) (c_content m) -> good_name n /\ clean 1024 [] v) /\ (List.length (c_content m) <= 20)%nat
  /\ N.of_nat (List.length (c_body m)) <= 10485760.

(** white space, and that of it which is not a control character: what is lost round
    names and round values *)
Definition white (c : N) : Prop := is_ws c = true.
Definition blank (c : N) : Prop := is_ws c = true /\ is_control c = false.
(** neither the first nor the last character is one of [P] *)
Definition bare (P : N -> Prop) (v : str) : Prop := forall a c b, v = a ++ c :: b -> a = [] \/ b = [] -> ~ P c.
(** [w] is [v] without those round it *)
Definition pared (P : N -> Prop) (v w : str) : Prop := bare P w /\ exists a b, v = a ++ w ++ b /\ (forall c, In c (a ++ b) -> P c).
(** no parameters, and names that white space round them does not change *)
Definition no_params (m : cpim) : Prop := forall n hs h, In (n, hs) (c_headers m) -> In h hs -> h_params h = [].
Definition tidy (m : cpim) : Prop :=
  (forall n hs, In (n, hs) (c_headers m) -> bare white n) /\ (forall n v, In (n, v) (c_content m) -> bare white n /\ lower n <> lit "content-type").
(** the messages say the same, but for blanks round values *)
Definition same_but_blanks (m m' : cpim) : Prop :=
  Forall2 (fun p p' => fst p = fst p' /\ Forall2 (fun h h' => pared blank (h_value h) (h_value h') /\ h_params h' = []) (snd p) (snd p')) (c_headers m) (c_headers m')
  /\ pared white (c_type m) (c_type m')
  /\ Forall2 (fun p p' => fst p = fst p' /\ pared white (snd p) (snd p')) (c_content m) (c_content m')
  /\ c_body m = c_body m'.
