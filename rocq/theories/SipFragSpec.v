(** Vocabulary for property C176. *)
From Coq Require Import Arith NArith Bool String List.
Import ListNotations.
From Verif Require Import Base Headers Method Text Uri Msg Message MessageSpec HeadersProofs SipFrag.
Open Scope N_scope.
Open Scope list_scope.

(** the first header of a name *)
Definition first_of (n : string) (hs : headers) (v : str) : Prop :=
  exists a m b, hs = a ++ (m, v) :: b /\ lower m = lower (lit n) /\ forall h, In h a -> lower (fst h) <> lower (lit n).
(** a body that its headers describe *)
Definition described (hs : headers) (b : list N) : Prop :=
  b <> [] -> (exists v, first_of "Content-Type" hs v) /\ exists v, first_of "Content-Length" hs v /\ reads_as v (llen b).
(** fragments as the constructors give them; a request line holds a method of the API and an
    address without line breaks, a response one the rules for status lines accept *)
Definition clean_start (s : start) : Prop :=
  match s with
  | Asked m u => api_method m /\ ~ In 13 (uri_text u) /\ is_str (uri_text u) = true
  | Answered c r => status_new c r = Some (c, r) /\ is_str r = true
  end.
Inductive fresh : frag -> Prop :=
| Fresh_empty : fresh frag_empty
| Fresh_status : forall c r f, frag_status c r = Some f -> is_str r = true -> fresh f
| Fresh_response : forall r f, frag_of_response r = Some f -> clean_start (Answered (p_code r) (p_reason r)) -> good_headers (p_headers r) -> text_headers (p_headers r) -> fresh f
| Fresh_start : forall s, clean_start s -> fresh (frag_start s)
| Fresh_headers : forall hs, good_headers hs -> text_headers hs -> fresh (frag_headers hs).
(** no call went through the mutable headers, and all values are text *)
Definition direct (o : fop) : Prop := match o with Add _ v => is_str v = true | SetBody _ => True | Edited _ => False end.
(** the lines in front of the body *)
Definition start_lines (s : option start) : list str :=
  match s with
  | None => []
  | Some (Asked m u) => [method_str m ++ lit " " ++ uri_text u ++ lit " SIP/2.0"]
  | Some (Answered c r) => [lit "SIP/2.0 " ++ print_N c ++ lit " " ++ r]
  end.
Definition head_lines (f : frag) : list str := start_lines (f_start f) ++ map (fun h => fst h ++ lit ": " ++ snd h) (f_headers f).
