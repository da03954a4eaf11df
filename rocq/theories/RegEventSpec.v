(** Registration event documents: what a caller can build, and how XML is read
    (specification only). *)
From Coq Require Import NArith Bool String List.
Import ListNotations.
From Verif Require Import Base RegEvent.
Open Scope N_scope.
Open Scope list_scope.

(** ** What a caller can build; [Display] of an [f32] between 0 and 1 writes digits, a
    point and, for -0, a sign *)
Definition decimal (s : str) : Prop := forall c, In c s -> In c (lit "0123456789.-").
Inductive contact_built : contact -> Prop :=
| cb_new : forall i s u c, contact_new i s u = Some c -> contact_built c
| cb_event : forall c e, contact_built c -> contact_built (with_event c e)
| cb_expires : forall c n, contact_built c -> n <= u32_max -> contact_built (with_expires c n)
| cb_cseq : forall c n, contact_built c -> n <= u32_max -> contact_built (with_cseq c n)
| cb_retry : forall c n, contact_built c -> n <= u32_max -> contact_built (with_retry c n)
| cb_duration : forall c n, contact_built c -> n <= u32_max -> contact_built (with_duration c n)
| cb_name : forall c n c', contact_built c -> with_name c n = Some c' -> contact_built c'
| cb_call : forall c n c', contact_built c -> with_call c n = Some c' -> contact_built c'
| cb_q : forall c q c', contact_built c -> decimal (shown q) -> with_q c q = Some c' -> contact_built c'.
Inductive reg_built : registration -> Prop :=
| rb_new : forall a i s r, reg_new a i s = Some r -> reg_built r
| rb_add : forall r c r', reg_built r -> contact_built c -> add_contact r c = Some r' -> reg_built r'.
Inductive built : reginfo -> Prop :=
| ib_new : forall v s, v <= u32_max -> built (info_new v s)
| ib_add : forall d r d', built d -> reg_built r -> add_registration d r = Some d' -> built d'.

(** ** The limits *)
Definition plain (n : N) (s : str) : Prop := blen s <= n /\ forall c, In c s -> 32 <= c /\ c <> 127.
Definition good_contact (c : contact) : Prop :=
  (c_id c <> [] /\ plain 128 (c_id c)) /\ (c_uri c <> [] /\ plain 512 (c_uri c)) /\ (forall n, c_name c = Some n -> plain 256 n)
  /\ (forall i, c_call c = Some i -> i <> [] /\ plain 256 i) /\ (forall q, c_q c = Some q -> in_unit q = true /\ decimal (shown q)).
Definition good_reg (r : registration) : Prop :=
  (r_aor r <> [] /\ plain 512 (r_aor r)) /\ (r_id r <> [] /\ plain 128 (r_id r)) /\ (List.length (r_contacts r) <= 50)%nat /\ (forall c, In c (r_contacts r) -> good_contact c).
Definition within (d : reginfo) : Prop := (List.length (i_regs d) <= 100)%nat /\ forall r, In r (i_regs d) -> good_reg r.

(** ** How XML is read *)
(** the text between the tags, and the tags; quoted values in a tag may hold anything but
    a quotation mark.  [None] if the text ends in a tag *)
Inductive token := Text (s : str) | Tag (s : str).
Inductive mode := InText | InTag | InValue.
Fixpoint cut (m : mode) (sofar s : str) : option (list token) :=
  match s with
  | [] => match m with InText => Some [Text sofar] | _ => None end
  | c :: r =>
      match m with
      | InText => if c =? 60 then option_map (cons (Text sofar)) (cut InTag [] r) else cut InText (sofar ++ [c]) r
      | InTag => if c =? 62 then option_map (cons (Tag sofar)) (cut InText [] r) else cut (if c =? 34 then InValue else InTag) (sofar ++ [c]) r
      | InValue => cut (if c =? 34 then InTag else InValue) (sofar ++ [c]) r
      end
  end.
(** the text a run of characters and references stands for *)
Inductive means : str -> str -> Prop :=
| m_end : means [] []
| m_char : forall c s t, ~ In c (lit "<&""") -> means s t -> means (c :: s) (c :: t)
| m_lt : forall s t, means s t -> means (lit "&lt;" ++ s) (60 :: t)
| m_gt : forall s t, means s t -> means (lit "&gt;" ++ s) (62 :: t)
| m_amp : forall s t, means s t -> means (lit "&amp;" ++ s) (38 :: t)
| m_quot : forall s t, means s t -> means (lit "&quot;" ++ s) (34 :: t)
| m_apos : forall s t, means s t -> means (lit "&apos;" ++ s) (39 :: t).
(** what a reader is told *)
Inductive item := Open (name : str) (attrs : list (str * str)) | Close (name : str) | Chars (s : str).
Definition name_like (n : str) : Prop := n <> [] /\ forall c, In c n -> 97 <= c <= 122 \/ c = 45.
Inductive attributes : str -> list (str * str) -> Prop :=
| at_end : attributes [] []
| at_more : forall n v x s l, name_like n -> means v x -> attributes s l -> attributes (lit " " ++ n ++ lit "=""" ++ v ++ lit """" ++ s) ((n, x) :: l).
Inductive stands_for : token -> item -> Prop :=
| sf_open : forall n s l, name_like n -> attributes s l -> stands_for (Tag (n ++ s)) (Open n l)
| sf_close : forall n, name_like n -> stands_for (Tag (lit "/" ++ n)) (Close n)
| sf_chars : forall s x, means s x -> stands_for (Text s) (Chars x).
(** text is content in [uri] and [display-name]; elsewhere it has to be blank and is
    layout *)
Definition texted (n : str) : Prop := n = lit "uri" \/ n = lit "display-name".
Definition blank (s : str) : Prop := forall c, In c s -> c = 32 \/ c = 10.
Inductive reads : list token -> list item -> Prop :=
| rd_end : forall w, blank w -> reads [Text w] []
| rd_tag : forall w g i l r, blank w -> stands_for g i -> (forall n a, i = Open n a -> ~ texted n) -> reads l r -> reads (Text w :: g :: l) (i :: r)
| rd_leaf : forall w g n s y h l r, blank w -> stands_for g (Open n []) -> texted n -> stands_for (Text s) y -> stands_for h (Close n) -> reads l r ->
    reads (Text w :: g :: Text s :: h :: l) (Open n [] :: y :: Close n :: r).
(** a document with its declaration in front *)
Definition document (t : str) (r : list item) : Prop :=
  exists l, cut InText [] t = Some (Text [] :: Tag (lit "?xml version=""1.0""?") :: l) /\ reads l r.

(** ** The document that is meant *)
Definition some {A} (n : str) (f : A -> str) (o : option A) : list (str * str) := match o with Some v => [(n, f v)] | None => [] end.
Definition leaf (n s : str) : list item := [Open n []; Chars s; Close n].
Definition contact_items (c : contact) : list item :=
  Open (lit "contact")
    ([(lit "id", c_id c); (lit "state", con_state_text (c_state c))] ++ some (lit "event") event_text (c_event c) ++ some (lit "expires") print_N (c_expires c)
     ++ some (lit "retry-after") print_N (c_retry c) ++ some (lit "duration-registered") print_N (c_duration c) ++ some (lit "q") shown (c_q c)
     ++ some (lit "callid") (fun s => s) (c_call c) ++ some (lit "cseq") print_N (c_cseq c))
  :: leaf (lit "uri") (c_uri c) ++ match c_name c with Some n => leaf (lit "display-name") n | None => [] end ++ [Close (lit "contact")].
Definition reg_items (r : registration) : list item :=
  Open (lit "registration") [(lit "aor", r_aor r); (lit "id", r_id r); (lit "state", reg_state_text (r_state r))] :: flat_map contact_items (r_contacts r) ++ [Close (lit "registration")].
Definition items (d : reginfo) : list item :=
  Open (lit "reginfo") [(lit "xmlns", lit "urn:ietf:params:xml:ns:reginfo"); (lit "version", print_N (i_version d)); (lit "state", doc_state_text (i_state d))]
  :: flat_map reg_items (i_regs d) ++ [Close (lit "reginfo")].
