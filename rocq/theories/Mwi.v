(** Model of message summaries (message waiting indication):
    crates/sip-core/src/message_waiting.rs.  Errors are [None]: which of them is
    reported is not modelled. *)
From Coq Require Import NArith Bool String List.
Import ListNotations.
From Verif Require Import Base Msg.
Open Scope N_scope.
Open Scope list_scope.

(** message_waiting.rs:271-278 [MessageContextClass] *)
Inductive kind := KVoice | KFax | KPager | KMultimedia | KText | KNone.
Definition kinds : list kind := [KVoice; KFax; KPager; KMultimedia; KText; KNone].
(** the derived order, in which BTreeMap keeps the classes *)
Definition rank (k : kind) : N := match k with KVoice => 0 | KFax => 1 | KPager => 2 | KMultimedia => 3 | KText => 4 | KNone => 5 end.
(** 282-291 [header_name] *)
Definition kind_name (k : kind) : str :=
  match k with
  | KVoice => lit "Voice-Message" | KFax => lit "Fax-Message" | KPager => lit "Pager-Message"
  | KMultimedia => lit "Multimedia-Message" | KText => lit "Text-Message" | KNone => lit "None-Message"
  end.
(** 294-304 [from_header_name]: the names compared there are those of [kind_name] in lower case *)
Definition kind_of (n : str) : option kind := find (fun k => str_eqb (lower n) (lower (kind_name k))) kinds.

(** 330-335 [MessageCounts] *)
Record counts := mkCounts { n_new : N; n_old : N; u_new : N; u_old : N }.
(** 339-346 [MessageCounts::new] *)
Definition counts_new (a b : N) : counts := mkCounts a b 0 0.
(** 349-353 [with_urgent] *)
Definition with_urgent (c : counts) (a b : N) : counts := mkCounts (n_new c) (n_old c) a b.
(** addition of u32 with overflow checks (on in debug builds): a panic is [Panics] *)
Definition add_u32 (a b : N) : outcome N := if a + b <=? u32_max then Ret (a + b) else Panics.
(** 376-378 [total] and 381-383 [total_urgent] *)
Definition count_total (c : counts) : outcome N := add_u32 (n_new c) (n_old c).
Definition count_urgent (c : counts) : outcome N := add_u32 (u_new c) (u_old c).
(** 391-393 [has_urgent] *)
Definition has_urgent (c : counts) : bool := (0 <? u_new c) || (0 <? u_old c).

(** 412-420 [MessageHeader]: its seven fields *)
Inductive field := FTo | FFrom | FSubject | FDate | FPriority | FId | FContext.
Definition fields : list field := [FTo; FFrom; FSubject; FDate; FPriority; FId; FContext].
Record mheader := mkMHeader { h_to : option str; h_from : option str; h_subject : option str; h_date : option str; h_priority : option str; h_id : option str; h_context : option str }.
(** 424-434 [MessageHeader::new] *)
Definition mheader_new : mheader := mkMHeader None None None None None None None.
(** 492-524: the accessors *)
Definition field_of (h : mheader) (f : field) : option str :=
  match f with FTo => h_to h | FFrom => h_from h | FSubject => h_subject h | FDate => h_date h | FPriority => h_priority h | FId => h_id h | FContext => h_context h end.
Definition set_field (h : mheader) (f : field) (v : str) : mheader :=
  let 'mkMHeader a b c d e g i := h in
  match f with
  | FTo => mkMHeader (Some v) b c d e g i | FFrom => mkMHeader a (Some v) c d e g i | FSubject => mkMHeader a b (Some v) d e g i
  | FDate => mkMHeader a b c (Some v) e g i | FPriority => mkMHeader a b c d (Some v) g i | FId => mkMHeader a b c d e (Some v) i
  | FContext => mkMHeader a b c d e g (Some v)
  end.
(** the names in the text: 239-259 *)
Definition field_name (f : field) : str :=
  match f with
  | FTo => lit "To" | FFrom => lit "From" | FSubject => lit "Subject" | FDate => lit "Date" | FPriority => lit "Priority"
  | FId => lit "Message-ID" | FContext => lit "Message-Context"
  end.
(** 737-752 [validate_header_value] *)
Definition mvalue_ok (v : str) : bool := (blen v <=? 1024) && negb (existsb is_ascii_control v).
(** 720-735 [validate_account] *)
Definition account_ok (v : str) : bool := (blen v <=? 512) && negb (existsb is_ascii_control v).
(** 437-489 [with_to] ... [with_message_context] *)
Definition with_field (h : mheader) (f : field) (v : str) : option mheader := if mvalue_ok v then Some (set_field h f v) else None.

(** 99-104 [MessageSummary]; [messages] is a BTreeMap, kept in the order of [rank] *)
Record summary := mkSummary { s_waiting : bool; s_account : option str; s_classes : list (kind * counts); s_heads : list mheader }.
(** 108-115 [new] *)
Definition summary_new (w : bool) : summary := mkSummary w None [] [].
(** 122-127 [set_account] *)
Definition set_account (s : summary) (a : str) : option summary := if account_ok a then Some (mkSummary (s_waiting s) (Some a) (s_classes s) (s_heads s)) else None.
(** [BTreeMap::insert] *)
Fixpoint class_put (k : kind) (c : counts) (m : list (kind * counts)) : list (kind * counts) :=
  match m with
  | [] => [(k, c)]
  | (k', c') :: r => if rank k =? rank k' then (k, c) :: r else if rank k <? rank k' then (k, c) :: m else (k', c') :: class_put k c r
  end.
(** 134-147 [add_message_class] *)
Definition add_class (s : summary) (k : kind) (c : counts) : option summary :=
  if negb (existsb (fun p => rank (fst p) =? rank k) (s_classes s)) && (10 <=? llen (s_classes s)) then None
  else Some (mkSummary (s_waiting s) (s_account s) (class_put k c (s_classes s)) (s_heads s)).
(** 154-163 [add_message_header] *)
Definition add_head (s : summary) (h : mheader) : option summary :=
  if 50 <=? llen (s_heads s) then None else Some (mkSummary (s_waiting s) (s_account s) (s_classes s) (s_heads s ++ [h])).
(** 191-198 [total_new], [total_old]: [Iterator::sum] adds from the left *)
Fixpoint sum_u32 (a : N) (l : list N) : outcome N :=
  match l with [] => Ret a | x :: r => match add_u32 a x with Ret b => sum_u32 b r | Panics => Panics end end.
Definition total_new (s : summary) : outcome N := sum_u32 0 (map (fun p => n_new (snd p)) (s_classes s)).
Definition total_old (s : summary) : outcome N := sum_u32 0 (map (fun p => n_old (snd p)) (s_classes s)).
(** 201-203 [has_urgent] *)
Definition summary_urgent (s : summary) : bool := existsb (fun p => has_urgent (snd p)) (s_classes s).

(** ** Writing: 206-264 [Display] *)
Definition pair_text (a b : N) : str := print_N a ++ lit "/" ++ print_N b.
Definition counts_text (c : counts) : str :=
  pair_text (n_new c) (n_old c) ++ (if (0 <? u_new c) || (0 <? u_old c) then lit " (" ++ pair_text (u_new c) (u_old c) ++ lit ")" else []).
Definition named (n v : str) : str := n ++ lit ": " ++ v.
Definition opt_line (n : str) (o : option str) : list str := match o with Some v => [named n v] | None => [] end.
Definition head_lines (h : mheader) : list str := flat_map (fun f => opt_line (field_name f) (field_of h f)) fields.
Definition summary_lines (s : summary) : list str :=
  named (lit "Messages-Waiting") (if s_waiting s then lit "yes" else lit "no")
  :: opt_line (lit "Message-Account") (s_account s)
  ++ map (fun p => named (kind_name (fst p)) (counts_text (snd p))) (s_classes s)
  ++ flat_map head_lines (s_heads s).
Definition write_summary (s : summary) : str := flat_map (fun l => l ++ [10]) (summary_lines s).

(** ** Reading *)
(** 682-716 [parse_message_counts] *)
Definition pair_of (s : str) : option (N * N) :=
  match split_on 47 s with
  | [a; b] => match parse_uint u32_max a, parse_uint u32_max b with Some x, Some y => Some (x, y) | _, _ => None end
  | _ => None
  end.
Definition counts_of (s : str) : option counts :=
  match split_ws s with
  | [] => None
  | p :: r =>
      match pair_of p with
      | None => None
      | Some (a, b) =>
          match r with
          | [] => Some (counts_new a b)
          | u :: _ => match pair_of (trim_by (fun c => mem c [40; 41]) u) with Some (x, y) => Some (mkCounts a b x y) | None => Some (counts_new a b) end
          end
      end
  end.
(** the reader's state: the summary so far, whether the status was seen, and the
    message header being gathered (560-562) *)
Record reading := mkReading { r_sum : summary; r_found : bool; r_cur : option mheader }.
Definition lift (r : reading) (o : option summary) : option reading := match o with Some s => Some (mkReading s (r_found r) (r_cur r)) | None => None end.
(** 566-571, 668-670: the message header gathered is added *)
Definition flush (r : reading) : option reading :=
  match r_cur r with Some h => match add_head (r_sum r) h with Some s => Some (mkReading s (r_found r) None) | None => None end | None => Some r end.
(** 582-664: one line with a name and a value.  The names compared for the fields
    are those of [field_name] in lower case; none ends in "-message" *)
Definition read_field (r : reading) (name v : str) : option reading :=
  if str_eqb name (lit "messages-waiting") then
    let s := r_sum r in
    if eq_ic v (lit "yes") then Some (mkReading (mkSummary true (s_account s) (s_classes s) (s_heads s)) true (r_cur r))
    else if eq_ic v (lit "no") then Some (mkReading (mkSummary false (s_account s) (s_classes s) (s_heads s)) true (r_cur r))
    else None
  else if str_eqb name (lit "message-account") then lift r (set_account (r_sum r) v)
  else if ends_with (lit "-message") name then
    match kind_of name with
    | Some k => match counts_of v with Some c => lift r (add_class (r_sum r) k c) | None => Some r end
    | None => Some r
    end
  else match find (fun f => str_eqb name (lower (field_name f))) fields with
       | Some f => match with_field (match r_cur r with Some h => h | None => mheader_new end) f v with
                   | Some h => Some (mkReading (r_sum r) (r_found r) (Some h))
                   | None => None
                   end
       | None => Some r
       end.
(** 564-580: one line *)
Definition read_line (r : reading) (line : str) : option reading :=
  let l := trim line in
  match l with
  | [] => flush r
  | _ => match split_once 58 l with Some (n, v) => read_field r (lower (trim n)) (trim v) | None => Some r end
  end.
Fixpoint read_lines (ls : list str) (r : reading) : option reading :=
  match ls with [] => Some r | l :: ls' => match read_line r l with Some r' => read_lines ls' r' | None => None end end.
(** [str::lines]: no line after a final LF; a CR before the LF stays here, since every
    line is trimmed *)
Definition lines (s : str) : list str := let ls := split_on 10 s in if str_eqb (last ls []) [] then removelast ls else ls.
(** 551-679 [parse_message_summary] *)
Definition read_summary (body : str) : option summary :=
  if 102400 <? blen body then None
  else match read_lines (lines body) (mkReading (summary_new false) false None) with
       | Some r => match flush r with Some r' => if r_found r' then Some (r_sum r') else None | None => None end
       | None => None
       end.
