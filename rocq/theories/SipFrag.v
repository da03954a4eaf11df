(** Model of message fragments (crates/sip-core/src/sipfrag.rs), the bodies of NOTIFY requests
    that report how a referred request went.  Error payloads are dropped ([None] is an error). *)
From Coq Require Import Arith NArith Bool String List.
Import ListNotations.
From Verif Require Import Base Headers Method Text Uri Msg Message.
Open Scope N_scope.
Open Scope list_scope.

(** sipfrag.rs:14 *)
Definition MAX_FRAG_BODY : N := 65536.
(** sipfrag.rs:102-109 [StartLine]; the version is always SIP/2.0 (msg.rs) *)
Inductive start := Asked (m : method) (u : uri) | Answered (code : N) (reason : str).
(** sipfrag.rs:93-100 [SipFrag] *)
Record frag := mkFrag { f_start : option start; f_headers : headers; f_body : list N }.

(** sipfrag.rs:370-398 [validate_body_headers] *)
Definition body_headers_ok (hs : headers) (n : N) : bool :=
  if n =? 0 then true
  else match hget (lit "Content-Type") hs with
       | None => false
       | Some _ => match hget (lit "Content-Length") hs with
                   | None => false
                   | Some v => match parse_uint u64_max (trim v) with Some m => m =? n | None => false end
                   end
       end.
(** sipfrag.rs:113-119 [empty]; 132-140 [status_only]; 146-161 [from_response];
    164-179 [response] / [request]; 182-188 [headers_only] *)
Definition frag_empty : frag := mkFrag None [] [].
Definition frag_status (code : N) (reason : str) : option frag :=
  match status_new code reason with Some (c, r) => Some (mkFrag (Some (Answered c r)) [] []) | None => None end.
Definition frag_of_response (r : resp) : option frag :=
  if MAX_FRAG_BODY <? llen (p_body r) then None
  else if body_headers_ok (p_headers r) (llen (p_body r)) then Some (mkFrag (Some (Answered (p_code r) (p_reason r))) (p_headers r) (p_body r)) else None.
Definition frag_start (s : start) : frag := mkFrag (Some s) [] [].
Definition frag_headers (hs : headers) : frag := mkFrag None hs [].
(** sipfrag.rs:211-236 [with_header] / [add_header] *)
Definition frag_add (f : frag) (n v : str) : option frag :=
  match hpush (f_headers f) n v with Ok hs => Some (mkFrag (f_start f) hs (f_body f)) | Err _ => None end.
(** sipfrag.rs:250-288 [with_body] / [set_body] *)
Definition frag_set (f : frag) (b : list N) : option frag :=
  if MAX_FRAG_BODY <? llen b then None
  else if body_headers_ok (f_headers f) (llen b) then Some (mkFrag (f_start f) (f_headers f) b) else None.
(** calls a program makes; [Edited] goes through [headers_mut] (201-203) *)
Inductive fop := Add (n v : str) | SetBody (b : list N) | Edited (o : hop).
Definition fstep (f : frag) (o : fop) : frag :=
  match o with
  | Add n v => match frag_add f n v with Some f' => f' | None => f end
  | SetBody b => match frag_set f b with Some f' => f' | None => f end
  | Edited h => match hstep (f_headers f) h with Some hs => mkFrag (f_start f) hs (f_body f) | None => f end
  end.
Definition frun (f : frag) (ops : list fop) : frag := fold_left fstep ops f.

(** sipfrag.rs:331-352: the start line *)
Definition start_text (s : start) : str :=
  match s with
  | Asked m u => method_str m ++ lit " " ++ uri_text u ++ lit " " ++ lit "SIP/2.0" ++ CRLF
  | Answered c r => lit "SIP/2.0" ++ lit " " ++ print_N c ++ lit " " ++ r ++ CRLF
  end.
(** sipfrag.rs:325-368 [Display]: fails when the body is no text *)
Definition frag_text (f : frag) : option str :=
  let head := match f_start f with Some s => start_text s | None => [] end ++ flat_map (fun h => line_of (fst h) (snd h)) (f_headers f) in
  match f_body f with
  | [] => Some head
  | b => match from_utf8 b with Some t => Some (head ++ CRLF ++ t) | None => None end
  end.
(** sipfrag.rs:301-314 [status_code], [method] *)
Definition frag_code (f : frag) : option N := match f_start f with Some (Answered c _) => Some c | _ => None end.
Definition frag_method (f : frag) : option method := match f_start f with Some (Asked m _) => Some m | _ => None end.
