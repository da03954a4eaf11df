(** What a Reason header (RFC 3326) says (specification only). *)
From Coq Require Import NArith Bool String List.
Import ListNotations.
From Verif Require Import Base Text TextFacts ReplacesSpec Reason.
Open Scope N_scope.
Open Scope list_scope.

(** ** The written form *)
(** the text meant by the inside of a quoted string *)
Inductive means_text : str -> str -> Prop :=
| means_nil : means_text [] []
| means_char : forall c s t, c <> 92 -> means_text s t -> means_text (c :: s) (c :: t)
| means_pair : forall c s t, means_text s t -> means_text (92 :: c :: s) (c :: t).
(** a text that is not empty and would be taken for a quoted string *)
Definition wrapped (s : str) : Prop := exists i, s = [34] ++ i ++ [34].
(** a parameter name: no blanks around, no semicolon, no equals sign *)
Definition pname (s : str) : Prop := atom s /\ ~ In 61 s.
(** one parameter as it may be written, and what it says *)
Inductive written_param : str -> str * option str -> Prop :=
| written_flag : forall a n d, spaces a -> spaces d -> pname n -> written_param (a ++ n ++ d) (lower n, None)
| written_plain : forall a n b c v d, spaces a -> spaces b -> spaces c -> spaces d -> pname n -> atom v -> ~ wrapped v ->
    written_param (a ++ n ++ b ++ [61] ++ c ++ v ++ d) (lower n, Some v)
| written_quoted : forall a n b c q v d, spaces a -> spaces b -> spaces c -> spaces d -> pname n -> means_text q v -> ~ In 59 q ->
    written_param (a ++ n ++ b ++ [61] ++ c ++ ([34] ++ q ++ [34]) ++ d) (lower n, Some v).
(** the usual spelling of a protocol *)
Definition usual (p q : str) : Prop :=
  (lower p = lit "sip" -> q = lit "SIP") /\ (lower p = lit "q.850" -> q = lit "Q.850") /\ (lower p = lit "sdp" -> q = lit "SDP")
  /\ (lower p <> lit "sip" -> lower p <> lit "q.850" -> lower p <> lit "sdp" -> q = p).

(** ** Headers in memory *)
Definition sound_word (mx : N) (s : str) : Prop := s <> [] /\ sound_text mx s.
Definition sound_param (p : str * option str) : Prop :=
  sound_word 64 (fst p) /\ lower (fst p) = fst p /\ forall v, snd p = Some v -> sound_text 256 v.
(** what the constructors and the parser produce *)
Definition sound_reason (h : reason) : Prop :=
  sound_word 32 (rs_protocol h) /\ usual (rs_protocol h) (rs_protocol h) /\ sorted_keys (rs_params h)
  /\ (List.length (rs_params h) <= 20)%nat /\ Forall sound_param (rs_params h).
(** the value is written between quotes *)
Definition quoted_value (k v : str) : Prop := k = lit "text" \/ exists c, In c v /\ is_ws c = true.
(** what survives being written *)
Definition clean_param (p : str * option str) : Prop :=
  pname (fst p) /\ forall v, snd p = Some v -> ~ In 59 v /\ (quoted_value (fst p) v -> ~ In 92 v) /\ (~ quoted_value (fst p) v -> ~ wrapped v).
Definition clean_reason (h : reason) : Prop := atom (rs_protocol h) /\ Forall clean_param (rs_params h).
