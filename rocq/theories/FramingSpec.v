(** Vocabulary for the properties of stream framing. *)
From Coq Require Import NArith Bool String List.
Import ListNotations.
From Verif Require Import Base Framing.
Open Scope N_scope.
Open Scope list_scope.

Definition BLANK_LINE : list N := [13; 10; 13; 10].
(** nothing but CR and LF *)
Definition crlfs (k : list N) : Prop := forall c, In c k -> c = 13 \/ c = 10.
(** the first byte is neither CR nor LF *)
Definition starts (s : list N) : Prop := exists c r, s = c :: r /\ c <> 13 /\ c <> 10.
(** white space as [u8::is_ascii_whitespace] has it *)
Definition space (c : N) : Prop := c = 32 \/ c = 9 \/ c = 10 \/ c = 12 \/ c = 13.
(** [t] with white space around it *)
Definition padded (t s : list N) : Prop :=
  exists a b, s = a ++ t ++ b /\ (forall c, In c a -> space c) /\ (forall c, In c b -> space c).
(** the line (CR at the end aside) has a name, a colon and a value *)
Definition line_parts (line name value : list N) : Prop :=
  (line = name ++ lit ":" ++ value \/ line = name ++ lit ":" ++ value ++ [13]) /\ ~ In 58 name.
(** a Content-Length line, in its long or short form *)
Definition length_line (line value : list N) : Prop :=
  exists name n, line_parts line name value /\ padded n name /\ (lower n = lit "content-length" \/ lower n = lit "l").
Definition digits (v : list N) (n : N) : Prop := v <> [] /\ all_digits v = true /\ digits_value v = n.
(** the header block says that the body has [n] bytes: there is a Content-Length line and
    all of them say [n] *)
Definition declares (head : list N) (n : N) : Prop :=
  (exists l v, In l (split_on 10 head) /\ length_line l v)
  /\ forall l v, In l (split_on 10 head) -> length_line l v -> exists d, padded d v /\ digits d n.
(** [head] is what comes before the first blank line of [s], [rest] what comes after it *)
Definition head_of (s head rest : list N) : Prop :=
  s = head ++ BLANK_LINE ++ rest /\ forall a b, s = a ++ BLANK_LINE ++ b -> llen head <= llen a.
(** a complete message within the limits *)
Definition message (f : list N) : Prop :=
  starts f /\ exists head body, head_of f head body /\ llen head <= 65536 /\ declares head (llen body) /\ llen body <= 10485760.
(** the beginning of a message that may still become complete *)
Definition waiting (r : list N) : Prop :=
  r = [] \/ (starts r /\
    ((llen r <= 65536 /\ forall a b, r <> a ++ BLANK_LINE ++ b)
     \/ exists head part n, head_of r head part /\ llen head <= 65536 /\ declares head n /\ n <= 10485760 /\ llen part < n)).
(** the byte stream [s] consists of the messages [fs], CR and LF between them, and the
    incomplete rest [r] *)
Inductive framed_stream : list N -> list (list N) -> list N -> Prop :=
| framed_rest : forall k r, crlfs k -> waiting r -> framed_stream (k ++ r) [] r
| framed_message : forall k f s fs r, crlfs k -> message f -> framed_stream s fs r -> framed_stream (k ++ f ++ s) (f :: fs) r.
(** the blank line comes early enough for every segmentation *)
Definition early_head (f : list N) : Prop := forall head rest, head_of f head rest -> llen head <= 65533.
(** the stream of the messages [ms], any CR and LF (such as keep-alives) before, between
    and after them *)
Inductive sent_stream : list (list N) -> list N -> Prop :=
| sent_end : forall k, crlfs k -> sent_stream [] k
| sent_next : forall k m ms s, crlfs k -> sent_stream ms s -> sent_stream (m :: ms) (k ++ m ++ s).
