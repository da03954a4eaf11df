(** Model of SIP methods (crates/sip-core/src/method.rs). *)
From Coq Require Import NArith Bool List.
Import ListNotations.
From Verif Require Import Base.
Open Scope N_scope.

(** method.rs:52-86 [Method] *)
Inductive method :=
| MInvite | MAck | MBye | MCancel | MRegister | MOptions | MInfo | MUpdate | MMessage
| MPrack | MRefer | MSubscribe | MNotify | MPublish | MUnknown (token : str).

(** method.rs:94-112 [Method::as_str] *)
Definition method_str (m : method) : str :=
  match m with
  | MInvite => lit "INVITE" | MAck => lit "ACK" | MBye => lit "BYE" | MCancel => lit "CANCEL"
  | MRegister => lit "REGISTER" | MOptions => lit "OPTIONS" | MInfo => lit "INFO"
  | MUpdate => lit "UPDATE" | MMessage => lit "MESSAGE" | MPrack => lit "PRACK"
  | MRefer => lit "REFER" | MSubscribe => lit "SUBSCRIBE" | MNotify => lit "NOTIFY"
  | MPublish => lit "PUBLISH" | MUnknown t => t
  end.

(** method.rs MAX_METHOD_LENGTH *)
Definition MAX_METHOD_LENGTH : N := 32.
Inductive method_error := MEmpty | MTooLong | MControl | MInvalid.

Definition method_char (c : N) : bool := is_alnum c || existsb (N.eqb c) (lit "!%'*+-.^_`|~").

(** method.rs:232-266 [validate_method_token] *)
Definition validate_method_token (t : str) : option method_error :=
  match t with
  | [] => Some MEmpty
  | _ => if MAX_METHOD_LENGTH <? blen t then Some MTooLong
         else if existsb is_ascii_control t then Some MControl
         else if forallb method_char t then None else Some MInvalid
  end.

(** the standard methods in the order [from_token] tries them *)
Definition standard_methods : list method :=
  [MInvite; MAck; MBye; MCancel; MRegister; MOptions; MInfo; MUpdate; MMessage; MPrack; MRefer;
   MSubscribe; MNotify; MPublish].

(** method.rs:148-186 [Method::from_token] *)
Definition method_from_token (t : str) : result method method_error :=
  match find (fun m => eq_ic t (method_str m)) standard_methods with
  | Some m => Ok m
  | None => match validate_method_token t with
            | Some e => Err e
            | None => Ok (MUnknown (upper t))
            end
  end.

(** derived [PartialEq] *)
Definition method_eqb (a b : method) : bool :=
  match a, b with
  | MInvite, MInvite | MAck, MAck | MBye, MBye | MCancel, MCancel | MRegister, MRegister
  | MOptions, MOptions | MInfo, MInfo | MUpdate, MUpdate | MMessage, MMessage | MPrack, MPrack
  | MRefer, MRefer | MSubscribe, MSubscribe | MNotify, MNotify | MPublish, MPublish => true
  | MUnknown x, MUnknown y => str_eqb x y
  | _, _ => false
  end.
