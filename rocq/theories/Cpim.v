(** Model of CPIM messages: crates/sip-core/src/cpim.rs.  Errors are [None]: which
    of them is reported is not modelled. *)
From Coq Require Import NArith Bool String List.
Import ListNotations.
From Verif Require Import Base Text Dhcp.
Open Scope N_scope.
Open Scope list_scope.

Definition CRLF : str := [13; 10].
Definition BLANK : str := [13; 10; 13; 10].
(** cpim.rs:258-264 [CpimHeader]; params is a BTreeMap *)
Record header := mkHeader { h_value : str; h_params : list (str * str) }.
(** cpim.rs:240-255 [CpimMessage]; headers and content_headers are BTreeMaps *)
Record cpim := mkCpim { c_headers : list (str * list header); c_type : str; c_content : list (str * str); c_body : list N }.

(** ** Checks (604-714) *)
(** 604-628 [validate_header_name] *)
Definition name_ok (n : str) : bool :=
  negb (str_eqb n []) && (blen n <=? 128) && negb (existsb is_ascii_control n) && negb (existsb (fun c => mem c [58; 59; 61; 92; 34]) n).
(** 630-638 [validate_cpim_header_value] *)
Definition value_ok (v : str) : bool := blen v <=? 1024.
(** 640-659 [validate_param_name] *)
Definition pname_ok (n : str) : bool :=
  negb (str_eqb n []) && (blen n <=? 64) && negb (existsb (fun c => is_ascii_control c || mem c [59; 61; 92; 34]) n).
(** 661-677 [validate_param_value] *)
Definition pvalue_ok (v : str) : bool := (blen v <=? 256) && negb (existsb (fun c => is_ascii_control c || mem c [59; 92; 34]) v).
(** 679-697 [validate_content_type] *)
Definition type_ok (v : str) : bool := negb (str_eqb v []) && (blen v <=? 256) && negb (existsb is_ascii_control v).
(** 699-714 [validate_content_header_value] *)
Definition cvalue_ok (v : str) : bool := (blen v <=? 1024) && negb (existsb is_ascii_control v).

(** ** Building *)
Definition MAX_BODY : N := 10485760.
Definition MAX_PARSE : N := 20971520.
(** 268-283 [CpimMessage::new] *)
Definition cpim_new (t : str) (body : list N) : option cpim := if type_ok t && (llen body <=? MAX_BODY) then Some (mkCpim [] t [] body) else None.
(** 322-331 [set_body] *)
Definition set_body (m : cpim) (body : list N) : option cpim := if llen body <=? MAX_BODY then Some (mkCpim (c_headers m) (c_type m) (c_content m) body) else None.
(** the number of header lines *)
Definition total (hs : list (str * list header)) : N := fold_right (fun p n => llen (snd p) + n) 0 hs.
(** what is stored under a name *)
Definition stored (n : str) (hs : list (str * list header)) : list header := match bget n hs with Some l => l | None => [] end.
(** 550-556 [CpimHeader::new] *)
Definition header_new (v : str) : option header := if value_ok v then Some (mkHeader v []) else None.
(** 571-582 [with_param] *)
Definition with_param (h : header) (n v : str) : option header :=
  if pname_ok n && pvalue_ok v && (llen (h_params h) <? 10) then Some (mkHeader (h_value h) (bput n v (h_params h))) else None.
(** 405-422 [set_header] *)
Definition set_header (m : cpim) (n v : str) : option cpim :=
  if name_ok n && (total (c_headers m) - llen (stored n (c_headers m)) + 1 <=? 50)
  then match header_new v with Some h => Some (mkCpim (bput n [h] (c_headers m)) (c_type m) (c_content m) (c_body m)) | None => None end
  else None.
(** [entry(name).or_default().push(header)] *)
Definition push (n : str) (h : header) (hs : list (str * list header)) : list (str * list header) := bput n (stored n hs ++ [h]) hs.
(** 441-457 [add_header_obj] *)
Definition add_header_obj (m : cpim) (n : str) (h : header) : option cpim :=
  if name_ok n && (total (c_headers m) <? 50) then Some (mkCpim (push n h (c_headers m)) (c_type m) (c_content m) (c_body m)) else None.
(** 435-438 [add_header] *)
Definition add_header (m : cpim) (n v : str) : option cpim := match header_new v with Some h => add_header_obj m n h | None => None end.
(** 390-403 [add_content_header] *)
Definition add_content_header (m : cpim) (n v : str) : option cpim :=
  if name_ok n && cvalue_ok v && (llen (c_content m) <? 20) then Some (mkCpim (c_headers m) (c_type m) (bput n v (c_content m)) (c_body m)) else None.

(** ** Escapes (715-784) *)
(** lower-case hexadecimal digit *)
Definition hex_digit (d : N) : N := if d <? 10 then 48 + d else 87 + d.
(** [format!("\\u{:04x}")]; control characters are below 160, so there are four digits *)
Definition escape_u (c : N) : str := [92; 117; hex_digit (c / 4096 mod 16); hex_digit (c / 256 mod 16); hex_digit (c / 16 mod 16); hex_digit (c mod 16)].
Definition escape_c (c : N) : str :=
  if c =? 92 then [92; 92] else if c =? 34 then [92; 34] else if c =? 8 then [92; 98] else if c =? 9 then [92; 116]
  else if c =? 10 then [92; 110] else if c =? 13 then [92; 114] else if is_control c then escape_u c else [c].
(** 725-745 [escape_header_value] *)
Definition escape (s : str) : str := flat_map escape_c s.
(** [u32::from_str_radix(hex, 16)] of four ASCII characters: one plus sign may lead *)
Definition hex4 (a b c d : N) : option N :=
  match (if a =? 43 then Some 0 else hex_val a), hex_val b, hex_val c, hex_val d with
  | Some w, Some x, Some y, Some z => Some (4096 * w + 256 * x + 16 * y + z)
  | _, _, _, _ => None
  end.
Definition ocons (c : N) (o : option str) : option str := match o with Some s => Some (c :: s) | None => None end.
(** 747-784 [unescape_header_value] *)
Fixpoint unescape (s : str) : option str :=
  match s with
  | [] => Some []
  | c :: r =>
      if c =? 92 then
        match r with
        | [] => None
        | e :: r1 =>
            if e =? 92 then ocons 92 (unescape r1) else if e =? 34 then ocons 34 (unescape r1) else if e =? 98 then ocons 8 (unescape r1)
            else if e =? 116 then ocons 9 (unescape r1) else if e =? 110 then ocons 10 (unescape r1) else if e =? 114 then ocons 13 (unescape r1)
            else if e =? 117 then
              match r1 with
              | w :: x :: y :: z :: r2 =>
                  match hex4 w x y z with
                  | Some n => if is_scalar n then ocons n (unescape r2) else None
                  | None => None
                  end
              | _ => None
              end
            else None
        end
      else ocons c (unescape r)
  end.

(** ** Writing (488-540 [to_string]) *)
Definition param_text (p : str * str) : str := [59] ++ fst p ++ [61] ++ snd p.
Definition header_line (n : str) (h : header) : str := n ++ [58] ++ flat_map param_text (h_params h) ++ [32] ++ escape (h_value h).
Definition header_lines (hs : list (str * list header)) : list str := flat_map (fun p => map (header_line (fst p)) (snd p)) hs.
Definition content_line (p : str * str) : str := fst p ++ [58; 32] ++ snd p.
Definition type_line (t : str) : str := lit "Content-type: " ++ t.
Definition ended (l : str) : str := l ++ CRLF.
(** [garbled] stands for what [from_utf8_lossy] makes of bytes that are not UTF-8 *)
Definition cpim_text (garbled : list N -> str) (m : cpim) : option str :=
  if forallb (fun p => name_ok (fst p)) (c_headers m)
     && forallb (fun p => forallb (fun h => forallb (fun q => pname_ok (fst q) && pvalue_ok (snd q)) (h_params h)) (snd p)) (c_headers m)
     && type_ok (c_type m) && forallb (fun p => name_ok (fst p) && cvalue_ok (snd p)) (c_content m)
  then Some (lit "Content-type: Message/CPIM" ++ BLANK ++ flat_map ended (header_lines (c_headers m)) ++ CRLF
             ++ flat_map ended (type_line (c_type m) :: map content_line (c_content m)) ++ CRLF ++ lossy garbled (c_body m))
  else None.

(** ** Reading *)
(** [str::split] with a text that is not empty *)
Fixpoint split_fuel (f : nat) (p s : str) : list str :=
  match f with
  | O => [s]
  | S f' => match find_sub p s with Some (a, b) => a :: split_fuel f' p b | None => [s] end
  end.
Definition split_str (p s : str) : list str := split_fuel (S (length s)) p s.
Definition has (p s : str) : bool := match find_sub p s with Some _ => true | None => false end.
(** the lines of a section: 827-836 and 884-889 *)
Definition section_lines (s : str) : list str := filter (fun l => negb (str_eqb l [])) (split_str (if has CRLF s then CRLF else [10]) s).
(** 904-922: the parameters, which are looked for before the colon; those without "=" are left out *)
Fixpoint read_params (ps : list str) (acc : list (str * str)) : option (list (str * str)) :=
  match ps with
  | [] => Some acc
  | p :: r =>
      match split_once 61 p with
      | None => read_params r acc
      | Some (n, v) => if pname_ok (trim n) && pvalue_ok (trim v) && (llen acc <? 10) then read_params r (bput (trim n) (trim v) acc) else None
      end
  end.
(** 891-932: one header line *)
Definition read_line (l : str) : option (str * header) :=
  match split_once 58 l with
  | None => None
  | Some (np, v) =>
      match split_on 59 np with
      | [] => None
      | n :: ps =>
          if name_ok (trim n) then
            match read_params ps [], unescape (trim v) with
            | Some params, Some value => if value_ok value then Some (trim n, mkHeader value params) else None
            | _, _ => None
            end
          else None
      end
  end.
(** 881-946 [parse_headers] *)
Fixpoint read_lines (ls : list str) (acc : list (str * list header)) : option (list (str * list header)) :=
  match ls with
  | [] => Some acc
  | l :: r =>
      match read_line l with
      | None => None
      | Some (n, h) => if total (push n h acc) <=? 50 then read_lines r (push n h acc) else None
      end
  end.
(** 833-858: the content headers; lines without a colon are left out *)
Fixpoint read_content (ls : list str) (t : str) (acc : list (str * str)) : option (str * list (str * str)) :=
  match ls with
  | [] => Some (t, acc)
  | l :: r =>
      match split_once 58 l with
      | None => read_content r t acc
      | Some (n, v) =>
          if eq_ic (trim n) (lit "Content-type") then (if type_ok (trim v) then read_content r (trim v) acc else None)
          else if name_ok (trim n) && cvalue_ok (trim v) && (llen acc <? 20) then read_content r t (bput (trim n) (trim v) acc)
          else None
      end
  end.
(** 787-877 [parse_cpim].  [to_lowercase] of the first section: only ASCII letters
    can become letters of the text that is looked for, so [lower] is enough *)
Definition parse_cpim (s : str) : option cpim :=
  if blen s <=? MAX_PARSE then
    match split_str (if has BLANK s then BLANK else [10; 10]) s with
    | mime :: headers :: content :: b :: bs =>
        if has (lit "message/cpim") (lower mime) then
          match read_lines (section_lines headers) [], read_content (section_lines content) (lit "text/plain") [] with
          | Some hs, Some (t, cs) =>
              if llen (utf8 (join BLANK (b :: bs))) <=? MAX_BODY then Some (mkCpim hs t cs (utf8 (join BLANK (b :: bs)))) else None
          | _, _ => None
          end
        else None
    | _ => None
    end
  else None.
