(** The Date header: what looks like a date (specification only). *)
From Coq Require Import NArith Bool String List.
Import ListNotations.
From Verif Require Import Base Text DateHdr.
Open Scope N_scope.
Open Scope list_scope.

(** two digits, four digits *)
Definition two (s : str) (v : N) : Prop := exists a b, s = [48 + a; 48 + b] /\ a <= 9 /\ b <= 9 /\ v = 10 * a + b.
Definition four (s : str) (v : N) : Prop :=
  exists a b c d, s = [48 + a; 48 + b; 48 + c; 48 + d] /\ a <= 9 /\ b <= 9 /\ c <= 9 /\ d <= 9 /\ v = 1000 * a + 100 * b + 10 * c + d.
(** the names of days and months *)
Definition day_names : list str := [lit "Mon"; lit "Tue"; lit "Wed"; lit "Thu"; lit "Fri"; lit "Sat"; lit "Sun"].
Definition month_names : list str := [lit "Jan"; lit "Feb"; lit "Mar"; lit "Apr"; lit "May"; lit "Jun"; lit "Jul"; lit "Aug"; lit "Sep"; lit "Oct"; lit "Nov"; lit "Dec"].
(** the first words of a date, as they should be, and what follows them; [two] and [four]
    are numbers of two and four digits *)
Definition shape (s : str) : Prop :=
  exists day commas dd mon y t z rest h m c d v vh vm vs,
    split_ws s = (day ++ commas) :: dd :: mon :: y :: t :: z :: rest
    /\ In day day_names /\ (commas <> [] /\ forall x, In x commas -> x = 44)
    /\ two dd d /\ 1 <= d <= 31 /\ In mon month_names /\ four y v /\ 1970 <= v <= 2100
    /\ t = h ++ 58 :: m ++ 58 :: c /\ two h vh /\ two m vm /\ two c vs /\ vh <= 23 /\ vm <= 59 /\ vs <= 59
    /\ (2 <= List.length z)%nat /\ forall x, In x z -> 65 <= x <= 90 \/ 97 <= x <= 122.
