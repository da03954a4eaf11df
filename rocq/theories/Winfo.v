(** Model of watcher information documents: crates/sip-core/src/watcher_info.rs.  Errors
    are [None]: which of them is reported is not modelled. *)
From Coq Require Import NArith Bool String List.
Import ListNotations.
From Verif Require Import Base Text AnyUri.
Open Scope N_scope.
Open Scope list_scope.

(** watcher_info.rs:527-534 [WatcherStatus] and 570-581 [WatcherEvent] *)
Inductive status := Pending | Active | Waiting | Terminated.
Inductive event := Subscribe | Approved | Deactivated | Probation | Rejected | Timeout | Giveup | Noresource.
(** 536-555 [as_str], [parse] *)
Definition status_text (s : status) : str :=
  match s with Pending => lit "pending" | Active => lit "active" | Waiting => lit "waiting" | Terminated => lit "terminated" end.
Definition status_of (s : str) : option status :=
  find (fun x => str_eqb (lower s) (status_text x)) [Pending; Active; Waiting; Terminated].
(** 583-610 [as_str], [parse] *)
Definition event_text (e : event) : str :=
  match e with
  | Subscribe => lit "subscribe" | Approved => lit "approved" | Deactivated => lit "deactivated" | Probation => lit "probation"
  | Rejected => lit "rejected" | Timeout => lit "timeout" | Giveup => lit "giveup" | Noresource => lit "noresource"
  end.
Definition event_of (s : str) : option event :=
  find (fun x => str_eqb (lower s) (event_text x)) [Subscribe; Approved; Deactivated; Probation; Rejected; Timeout; Giveup; Noresource].

(** 391-400 [Watcher], 309-314 [WatcherList], 215-220 [WatcherinfoDocument]; numbers are u32 *)
Record watcher := mkWatcher { w_id : str; w_status : status; w_event : event; w_uri : option str; w_name : option str; w_expires : option N; w_since : option N }.
Record wlist := mkList { l_resource : str; l_package : str; l_watchers : list watcher }.
Record winfo := mkInfo { i_version : N; i_state : str; i_lists : list wlist }.

(** ** Checks *)
(** 76-98 [validate_state] *)
Definition state_ok (s : str) : bool := negb (str_eqb s []) && (blen s <=? 16) && (eq_ic s (lit "full") || eq_ic s (lit "partial")).
(** 101-125 [validate_uri] *)
Definition uri_ok (s : str) : bool := negb (str_eqb s []) && (blen s <=? 512) && negb (existsb is_control s) && is_some (parse_any s).
(** 128-150 [validate_id] *)
Definition id_ok (s : str) : bool := negb (str_eqb s []) && (blen s <=? 128) && negb (existsb is_control s).
(** 153-169 [validate_display_name] *)
Definition name_ok (s : str) : bool := (blen s <=? 256) && negb (existsb (fun c => is_control c && negb (c =? 9)) s).
(** 172-208 [validate_package], [is_token_char] *)
Definition token_c (c : N) : bool := is_alnum c || mem c (lit "-.!%*_+`'~").
Definition package_ok (s : str) : bool := negb (str_eqb s []) && (blen s <=? 64) && negb (existsb is_control s) && forallb token_c s.

(** ** Building *)
(** 224-235 [WatcherinfoDocument::new] *)
Definition info_new (v : N) (s : str) : option winfo := if state_ok s then Some (mkInfo v (lower s) []) else None.
(** 252-262 [add_watcher_list] *)
Definition add_list (d : winfo) (l : wlist) : option winfo :=
  if 100 <=? llen (i_lists d) then None else Some (mkInfo (i_version d) (i_state d) (i_lists d ++ [l])).
(** 318-333 [WatcherList::new] *)
Definition list_new (r p : str) : option wlist := if uri_ok r && package_ok p then Some (mkList r p []) else None.
(** 351-361 [add_watcher] *)
Definition add_watcher (l : wlist) (w : watcher) : option wlist :=
  if 1000 <=? llen (l_watchers l) then None else Some (mkList (l_resource l) (l_package l) (l_watchers l ++ [w])).
(** 404-420 [Watcher::new] *)
Definition watcher_new (i : str) (s : status) (e : event) : option watcher := if id_ok i then Some (mkWatcher i s e None None None None) else None.
(** 459-464 [with_uri], 467-472 [with_display_name], 475-484 [with_expiration],
    [with_duration_subscribed] *)
Definition with_uri (w : watcher) (u : str) : option watcher :=
  if uri_ok u then Some (mkWatcher (w_id w) (w_status w) (w_event w) (Some u) (w_name w) (w_expires w) (w_since w)) else None.
Definition with_name (w : watcher) (n : str) : option watcher :=
  if name_ok n then Some (mkWatcher (w_id w) (w_status w) (w_event w) (w_uri w) (Some n) (w_expires w) (w_since w)) else None.
Definition with_expires (w : watcher) (n : N) : watcher := mkWatcher (w_id w) (w_status w) (w_event w) (w_uri w) (w_name w) (Some n) (w_since w).
Definition with_since (w : watcher) (n : N) : watcher := mkWatcher (w_id w) (w_status w) (w_event w) (w_uri w) (w_name w) (w_expires w) (Some n).

(** ** Writing *)
(** 626-641 [xml_escape]; [{:X}] of a control character has at most two digits *)
Definition hex_digit (n : N) : N := if n <? 10 then 48 + n else 55 + n.
Definition hex_text (c : N) : str := if c <? 16 then [hex_digit c] else [hex_digit (c / 16); hex_digit (c mod 16)].
Definition escape_c (c : N) : str :=
  if c =? 60 then lit "&lt;" else if c =? 62 then lit "&gt;" else if c =? 38 then lit "&amp;" else if c =? 34 then lit "&quot;" else if c =? 39 then lit "&apos;"
  else if is_control c && negb (c =? 9) && negb (c =? 10) && negb (c =? 13) then lit "&#x" ++ hex_text c ++ lit ";" else [c].
Definition escape (s : str) : str := flat_map escape_c s.
Definition NL : str := [10].
(** one attribute, with the blank before it *)
Definition attr (name v : str) : str := 32 :: name ++ lit "=""" ++ v ++ lit """".
Definition opt_attr (name : str) (o : option str) : str := match o with Some v => attr name v | None => [] end.
(** 487-520 [Watcher::to_xml] *)
Definition watcher_xml (w : watcher) : str :=
  lit "    <watcher" ++ attr (lit "id") (escape (w_id w)) ++ attr (lit "status") (status_text (w_status w)) ++ attr (lit "event") (event_text (w_event w))
  ++ opt_attr (lit "display-name") (option_map escape (w_name w)) ++ opt_attr (lit "expiration") (option_map print_N (w_expires w))
  ++ opt_attr (lit "duration-subscribed") (option_map print_N (w_since w)) ++ lit ">"
  ++ match w_uri w with Some u => escape u | None => [] end ++ lit "</watcher>" ++ NL.
(** 368-386 [WatcherList::to_xml] *)
Definition list_xml (l : wlist) : str :=
  lit "  <watcher-list" ++ attr (lit "resource") (escape (l_resource l)) ++ attr (lit "package") (escape (l_package l)) ++ lit ">" ++ NL
  ++ flat_map watcher_xml (l_watchers l) ++ lit "  </watcher-list>" ++ NL.
(** 279-303 [WatcherinfoDocument::to_xml] *)
Definition to_xml (d : winfo) : str :=
  lit "<?xml version=""1.0"" encoding=""UTF-8""?>" ++ NL
  ++ lit "<watcherinfo" ++ attr (lit "xmlns") (lit "urn:ietf:params:xml:ns:watcherinfo") ++ attr (lit "version") (print_N (i_version d)) ++ attr (lit "state") (escape (i_state d)) ++ lit ">" ++ NL
  ++ flat_map list_xml (i_lists d) ++ lit "</watcherinfo>" ++ NL.

(** ** Reading *)
(** [u32::from_str_radix(_, 16)] *)
Definition hex_value (s : str) : N := fold_left (fun acc c => acc * 16 + match hex_val c with Some v => v | None => 0 end) s 0.
Definition parse_hex (s : str) : option N :=
  let body := match s with c :: r => if c =? 43 then r else s | [] => s end in
  match body with
  | [] => None
  | _ => if forallb is_hex body then let v := hex_value body in if v <=? u32_max then Some v else None else None
  end.
(** [char::from_u32] *)
Definition as_char (o : option N) : option N := match o with Some v => if is_scalar v then Some v else None | None => None end.
(** 652-683: what an entity stands for *)
Definition entity (e : str) : option N :=
  if str_eqb e (lit "lt") then Some 60 else if str_eqb e (lit "gt") then Some 62 else if str_eqb e (lit "amp") then Some 38
  else if str_eqb e (lit "quot") then Some 34 else if str_eqb e (lit "apos") then Some 39
  else match e with
       | 35 :: 120 :: h => as_char (parse_hex h)
       | 35 :: 88 :: h => as_char (parse_hex h)
       | 35 :: d => as_char (parse_uint u32_max d)
       | _ => None
       end.
(** 643-699 [xml_unescape] *)
Fixpoint unescape_fuel (f : nat) (s : str) : option str :=
  match f with
  | O => match s with [] => Some [] | _ => None end
  | S f' =>
      match s with
      | [] => Some []
      | c :: r =>
          if c =? 38 then
            match split_once 59 r with
            | Some (e, r') => match entity e, unescape_fuel f' r' with Some x, Some t => Some (x :: t) | _, _ => None end
            | None => None
            end
          else match unescape_fuel f' r with Some t => Some (c :: t) | None => None end
      end
  end.
Definition unescape (s : str) : option str := unescape_fuel (List.length s) s.
(** 829-897 [extract_attribute], its loop: [prev] is the character before [s].  The search
    goes on one character behind a find that was no attribute; [None] is an error,
    [Some None] no attribute *)
Definition after_ok (s : str) : bool := match s with [] => true | c :: _ => is_ws c || (c =? 61) end.
Definition before_ok (prev : option N) : bool := match prev with None => true | Some c => is_ws c || (c =? 60) end.
Definition quoted (s : str) : option (option str) :=
  match s with
  | q :: r => if (q =? 34) || (q =? 39) then match split_once q r with Some (v, _) => match unescape v with Some t => Some (Some t) | None => None end | None => None end else None
  | [] => None
  end.
Fixpoint scan (name : str) (prev : option N) (s : str) : option (option str) :=
  match s with
  | [] => Some None
  | c :: r =>
      match strip_prefix name s with
      | Some t =>
          if before_ok prev && after_ok t then
            match drop_while is_ws t with
            | x :: u => if x =? 61 then quoted (drop_while is_ws u) else scan name (Some c) r
            | [] => scan name (Some c) r
            end
          else scan name (Some c) r
      | None => scan name (Some c) r
      end
  end.
(** 813-827 [extract_attribute] *)
Definition attribute (xml tag name : str) : option (option str) :=
  match find_sub tag xml with
  | None => Some None
  | Some (_, r) => match split_once 62 (tag ++ r) with Some (t, _) => scan name None t | None => None end
  end.
Definition need (o : option (option str)) : option str := match o with Some (Some v) => Some v | _ => None end.
(** 781-791: a number that cannot be read is ignored *)
Definition number (o : option str) : option N := match o with Some v => parse_uint u32_max v | None => None end.
(** 762-811 [parse_watcher] *)
Definition read_watcher (xml : str) : option watcher :=
  match need (attribute xml (lit "<watcher") (lit "id")), need (attribute xml (lit "<watcher") (lit "status")), need (attribute xml (lit "<watcher") (lit "event")) with
  | Some i, Some s, Some e =>
      match status_of s, event_of e with
      | Some st, Some ev =>
          match watcher_new i st ev with
          | Some w0 =>
              match (match attribute xml (lit "<watcher") (lit "display-name") with
                     | None => None | Some None => Some w0 | Some (Some n) => with_name w0 n end),
                    attribute xml (lit "<watcher") (lit "expiration"), attribute xml (lit "<watcher") (lit "duration-subscribed") with
              | Some w1, Some ex, Some du =>
                  let w2 := match number ex with Some n => with_expires w1 n | None => w1 end in
                  let w3 := match number du with Some n => with_since w2 n | None => w2 end in
                  match split_once 62 xml with
                  | Some (_, r) =>
                      match find_sub (lit "</watcher>") r with
                      | Some (c, _) =>
                          match unescape (trim c) with
                          | Some u => if str_eqb u [] then Some w3 else with_uri w3 u
                          | None => None
                          end
                      | None => Some w3
                      end
                  | None => Some w3
                  end
              | _, _, _ => None
              end
          | None => None
          end
      | _, _ => None
      end
  | _, _, _ => None
  end.
(** 735-760 [parse_watcher_list] *)
Fixpoint read_watchers (f : nat) (xml : str) (l : wlist) : option wlist :=
  match f with
  | O => None
  | S f' =>
      match find_sub (lit "<watcher ") xml with
      | None => Some l
      | Some (_, r) =>
          match find_sub (lit "</watcher>") (lit "<watcher " ++ r) with
          | None => None
          | Some (x, r') =>
              match read_watcher (x ++ lit "</watcher>") with
              | Some w => match add_watcher l w with Some l' => read_watchers f' r' l' | None => None end
              | None => None
              end
          end
      end
  end.
Definition read_list (xml : str) : option wlist :=
  match need (attribute xml (lit "<watcher-list") (lit "resource")), need (attribute xml (lit "<watcher-list") (lit "package")) with
  | Some r, Some p => match list_new r p with Some l => read_watchers (S (List.length xml)) xml l | None => None end
  | _, _ => None
  end.
(** 705-733 [parse_watcherinfo] *)
Fixpoint read_lists (f : nat) (xml : str) (d : winfo) : option winfo :=
  match f with
  | O => None
  | S f' =>
      match find_sub (lit "<watcher-list") xml with
      | None => Some d
      | Some (_, r) =>
          match find_sub (lit "</watcher-list>") (lit "<watcher-list" ++ r) with
          | None => None
          | Some (x, r') =>
              match read_list (x ++ lit "</watcher-list>") with
              | Some l => match add_list d l with Some d' => read_lists f' r' d' | None => None end
              | None => None
              end
          end
      end
  end.
Definition parse_winfo (xml : str) : option winfo :=
  match need (attribute xml (lit "<watcherinfo") (lit "version")) with
  | Some v =>
      match parse_uint u32_max v, need (attribute xml (lit "<watcherinfo") (lit "state")) with
      | Some n, Some s => match info_new n s with Some d => read_lists (S (List.length xml)) xml d | None => None end
      | _, _ => None
      end
  | None => None
  end.
