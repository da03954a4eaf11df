(** Model of presence documents (PIDF): crates/sip-core/src/presence.rs.  Errors are
    [None]: which of them is reported is not modelled.  Positions in the text are
    counted in characters instead of bytes: they are only compared with each other and
    used to cut the text at the places found. *)
From Coq Require Import NArith Bool String List.
Import ListNotations.
From Verif Require Import Base.
Open Scope N_scope.
Open Scope list_scope.

(** presence.rs:360-363 [BasicStatus] *)
Inductive basic := Open | Closed.
(** 367-372 [as_str] *)
Definition basic_text (b : basic) : str := match b with Open => lit "open" | Closed => lit "closed" end.
(** 375-381 [parse] *)
Definition basic_of (s : str) : option basic := if eq_ic s (lit "open") then Some Open else if eq_ic s (lit "closed") then Some Closed else None.

(** 217-223 [Tuple] *)
Record tuple := mkTuple { t_id : str; t_status : option basic; t_contact : option str; t_notes : list str; t_time : option str }.
(** 90-94 [PresenceDocument] *)
Record pidf := mkPidf { d_entity : str; d_tuples : list tuple; d_notes : list str }.

(** ** Checks (613-693) *)
Definition plain_text (mx : N) (s : str) : bool := (blen s <=? mx) && negb (existsb is_ascii_control s).
(** [validate_entity], [validate_id], [validate_contact], [validate_note], [validate_timestamp] *)
Definition entity_ok (s : str) : bool := negb (str_eqb s []) && plain_text 512 s.
Definition id_ok (s : str) : bool := negb (str_eqb s []) && plain_text 128 s.
Definition contact_ok (s : str) : bool := plain_text 512 s.
Definition note_ok (s : str) : bool := plain_text 512 s.
Definition time_ok (s : str) : bool := plain_text 64 s.

(** ** Building *)
(** 102-110 [PresenceDocument::new] *)
Definition pidf_new (e : str) : option pidf := if entity_ok e then Some (mkPidf e [] []) else None.
(** 117-126 [add_tuple] *)
Definition add_tuple (d : pidf) (t : tuple) : option pidf := if 50 <=? llen (d_tuples d) then None else Some (mkPidf (d_entity d) (d_tuples d ++ [t]) (d_notes d)).
(** 133-145 [add_note] *)
Definition add_note (d : pidf) (n : str) : option pidf :=
  if note_ok n && negb (20 <=? llen (d_notes d)) then Some (mkPidf (d_entity d) (d_tuples d) (d_notes d ++ [n])) else None.
(** 231-241 [Tuple::new] *)
Definition tuple_new (i : str) : option tuple := if id_ok i then Some (mkTuple i None None [] None) else None.
(** 244-247 [with_status] *)
Definition with_status (t : tuple) (b : basic) : tuple := mkTuple (t_id t) (Some b) (t_contact t) (t_notes t) (t_time t).
(** 254-258 [with_contact] *)
Definition with_contact (t : tuple) (c : str) : option tuple := if contact_ok c then Some (mkTuple (t_id t) (t_status t) (Some c) (t_notes t) (t_time t)) else None.
(** 265-277 [with_note] *)
Definition with_note (t : tuple) (n : str) : option tuple :=
  if note_ok n && negb (10 <=? llen (t_notes t)) then Some (mkTuple (t_id t) (t_status t) (t_contact t) (t_notes t ++ [n]) (t_time t)) else None.
(** 284-288 [with_timestamp] *)
Definition with_time (t : tuple) (s : str) : option tuple := if time_ok s then Some (mkTuple (t_id t) (t_status t) (t_contact t) (t_notes t) (Some s)) else None.

(** ** Writing *)
(** 399-410 [xml_escape] *)
Definition escape_c (c : N) : str :=
  if c =? 60 then lit "&lt;" else if c =? 62 then lit "&gt;" else if c =? 38 then lit "&amp;" else if c =? 34 then lit "&quot;" else if c =? 39 then lit "&apos;" else [c].
Definition escape (s : str) : str := flat_map escape_c s.
Definition NL : str := [10].
(** one element on a line of its own, two spaces in front *)
Definition note_text (n : str) : str := lit "<note>" ++ escape n ++ lit "</note>".
(** 316-355 [Tuple::to_xml] *)
Definition status_text (o : option basic) : str :=
  match o with
  | Some b => lit "    <status>" ++ NL ++ lit "      <basic>" ++ basic_text b ++ lit "</basic>" ++ NL ++ lit "    </status>" ++ NL
  | None => []
  end.
Definition contact_text (o : option str) : str := match o with Some c => lit "    <contact>" ++ escape c ++ lit "</contact>" ++ NL | None => [] end.
Definition time_text (o : option str) : str := match o with Some c => lit "    <timestamp>" ++ escape c ++ lit "</timestamp>" ++ NL | None => [] end.
Definition tuple_xml (t : tuple) : str :=
  lit "  <tuple id=""" ++ escape (t_id t) ++ lit """>" ++ NL
  ++ status_text (t_status t) ++ contact_text (t_contact t)
  ++ flat_map (fun n => lit "    <note>" ++ escape n ++ lit "</note>" ++ NL) (t_notes t)
  ++ time_text (t_time t) ++ lit "  </tuple>" ++ NL.
(** 178-200 [PresenceDocument::to_xml] *)
Definition to_xml (d : pidf) : str :=
  lit "<?xml version=""1.0"" encoding=""UTF-8""?>" ++ NL
  ++ lit "<presence xmlns=""urn:ietf:params:xml:ns:pidf"" entity=""" ++ escape (d_entity d) ++ lit """>" ++ NL
  ++ flat_map tuple_xml (d_tuples d)
  ++ flat_map (fun n => lit "  <note>" ++ escape n ++ lit "</note>" ++ NL) (d_notes d)
  ++ lit "</presence>" ++ NL.

(** ** Reading *)
(** 421-428: the entity between the ampersand and the semicolon *)
Definition entity_value (e : str) : str :=
  if str_eqb e (lit "lt") then [60] else if str_eqb e (lit "gt") then [62] else if str_eqb e (lit "amp") then [38] else if str_eqb e (lit "quot") then [34]
  else if str_eqb e (lit "apos") then [39] else 38 :: e ++ [59].
(** 412-437 [xml_unescape], character by character *)
Fixpoint unescape_fuel (f : nat) (s : str) : str :=
  match f with
  | O => s
  | S f' =>
      match s with
      | [] => []
      | c :: r =>
          if c =? 38 then match split_once 59 r with Some (e, r') => entity_value e ++ unescape_fuel f' r' | None => 38 :: unescape_fuel f' r end
          else c :: unescape_fuel f' r
      end
  end.
Definition unescape (s : str) : str := unescape_fuel (List.length s) s.
(** 550-560 [extract_attribute] *)
Definition attribute (xml tag name : str) : option str :=
  match find_sub tag xml with
  | Some (_, r) =>
      match split_once 62 (tag ++ r) with
      | Some (ts, _) => match find_sub (name ++ lit "=""") ts with Some (_, v) => match split_once 34 v with Some (x, _) => Some x | None => None end | None => None end
      | None => None
      end
  | None => None
  end.
Definition open_tag (n : str) : str := lit "<" ++ n ++ lit ">".
Definition close_tag (n : str) : str := lit "</" ++ n ++ lit ">".
(** 562-571 [extract_element_with_range]: the content and the text behind the element *)
Definition element (xml name : str) : option (str * str) :=
  match find_sub (open_tag name) xml with
  | Some (_, r) => match find_sub (close_tag name) r with Some (c, after) => Some (trim c, after) | None => None end
  | None => None
  end.
(** 573-576 [has_duplicate_element] in the text behind the element *)
Definition again (after name : str) : bool := match find_sub (open_tag name) after with Some _ => true | None => false end.
(** 494-508: the status; [None] is an error *)
Definition read_status (xml : str) : option (option basic) :=
  match find_sub (lit "<basic>") xml with
  | Some (_, r) => match find_sub (lit "</basic>") r with Some (c, _) => match basic_of (trim c) with Some b => Some (Some b) | None => None end | None => Some None end
  | None => Some None
  end.
(** 511-519, 536-544: an element that may occur once; [None] is an error *)
Definition once (xml name : str) : option (option str) :=
  match element xml name with Some (c, after) => if again after name then None else Some (Some (unescape c)) | None => Some None end.
(** 521-533: the notes of a tuple.  The end is looked for from the start tag on, which
    it does not overlap *)
Fixpoint read_notes (f : nat) (xml : str) (t : tuple) : option tuple :=
  match f with
  | O => None
  | S f' =>
      match find_sub (lit "<note>") xml with
      | Some (_, r) =>
          match find_sub (lit "</note>") r with
          | Some (n, r') => match with_note t (unescape (trim n)) with Some t' => read_notes f' r' t' | None => None end
          | None => Some t
          end
      | None => Some t
      end
  end.
(** 486-547 [parse_tuple] *)
Definition read_tuple (xml : str) : option tuple :=
  match attribute xml (lit "<tuple") (lit "id") with
  | None => None
  | Some i =>
      match tuple_new (unescape i) with
      | None => None
      | Some t0 =>
          match read_status xml with
          | None => None
          | Some st =>
              let t1 := mkTuple (t_id t0) st (t_contact t0) (t_notes t0) (t_time t0) in
              match once xml (lit "contact") with
              | None => None
              | Some oc =>
                  match (match oc with Some c => with_contact t1 c | None => Some t1 end) with
                  | None => None
                  | Some t2 =>
                      match read_notes (S (List.length xml)) xml t2 with
                      | None => None
                      | Some t3 =>
                          match once xml (lit "timestamp") with
                          | None => None
                          | Some os => match os with Some s => with_time t3 s | None => Some t3 end
                          end
                      end
                  end
              end
          end
      end
  end.
(** 460-477: the tuples, from position [pos] on, where [xml] is the text from there on;
    also their ranges *)
Fixpoint read_tuples (f : nat) (pos : nat) (xml : str) (d : pidf) (ranges : list (nat * nat)) : option (pidf * list (nat * nat)) :=
  match f with
  | O => None
  | S f' =>
      match find_sub (lit "<tuple") xml with
      | Some (a, r) =>
          let start := (pos + List.length a)%nat in
          match find_sub (lit "</tuple>") (lit "<tuple" ++ r) with
          | Some (x, r') =>
              let stop := (start + List.length x + 8)%nat in
              match read_tuple (x ++ lit "</tuple>") with
              | Some t => match add_tuple d t with Some d' => read_tuples f' stop r' d' (ranges ++ [(start, stop)]) | None => None end
              | None => None
              end
          | None => None
          end
      | None => Some (d, ranges)
      end
  end.
(** 578-611 [extract_document_notes]; a note start in a tuple is skipped *)
Definition within_range (p : nat) (r : nat * nat) : bool := Nat.leb (fst r) p && Nat.ltb p (snd r).
Fixpoint read_doc_notes (f : nat) (pos : nat) (xml : str) (ranges : list (nat * nat)) (d : pidf) : option pidf :=
  match f with
  | O => None
  | S f' =>
      match find_sub (lit "<note>") xml with
      | Some (a, r) =>
          let start := (pos + List.length a)%nat in
          if existsb (within_range start) ranges then read_doc_notes f' (start + 6) r ranges d
          else match find_sub (lit "</note>") r with
               | Some (n, r') => match add_note d (unescape (trim n)) with Some d' => read_doc_notes f' (start + 6 + List.length n + 7) r' ranges d' | None => None end
               | None => None
               end
      | None => Some d
      end
  end.
(** 444-483 [parse_pidf] *)
Definition parse_pidf (xml : str) : option pidf :=
  if 1048576 <? blen xml then None
  else match attribute xml (lit "<presence") (lit "entity") with
       | None => None
       | Some e =>
           match pidf_new (unescape e) with
           | None => None
           | Some d =>
               match read_tuples (S (List.length xml)) 0 xml d [] with
               | Some (d', ranges) => read_doc_notes (S (List.length xml)) 0 xml ranges d'
               | None => None
               end
           end
       end.
