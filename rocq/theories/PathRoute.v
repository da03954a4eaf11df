(** Model of the Path and Service-Route headers: crates/sip-core/src/service_route.rs and
    their readers in crates/sip-parse/src/header_values.rs.  The two types have the same
    code, so one model stands for both.  Errors are [None]: which of them is reported is
    not modelled.  A header that occurs several times is the list of its values. *)
From Coq Require Import NArith Bool String List.
Import ListNotations.
From Verif Require Import Base Text Uri AnyUri Auth.
Open Scope N_scope.
Open Scope list_scope.

(** service_route.rs:14 *)
Definition MAX_ROUTES : N := 50.
(** service_route.rs:71-73, 203-205: the routes of a header *)
Definition routes := list name_addr.
(** name_addr.rs:63-69 [NameAddr::from_uri] *)
Definition from_uri (u : any_uri) : name_addr := mkNa None u [].
(** service_route.rs:77-82, 209-214 [new] *)
Definition routes_new (l : routes) : option routes := if MAX_ROUTES <? llen l then None else Some l.
(** service_route.rs:85-89, 217-221 [single] *)
Definition routes_single (u : any_uri) : routes := [from_uri u].
(** service_route.rs:92-99, 224-231 [from_uris] *)
Definition routes_from_uris (us : list any_uri) : option routes := if MAX_ROUTES <? llen us then None else Some (map from_uri us).
(** service_route.rs:117-123, 249-255 [add_route] *)
Definition routes_add (l : routes) (u : any_uri) : option routes := if MAX_ROUTES <=? llen l then None else Some (l ++ [from_uri u]).
(** service_route.rs:126-128, 258-260 [uris] *)
Definition routes_uris (l : routes) : list any_uri := map na_uri l.
(** service_route.rs:134-143, 263-271 [all_loose_routing] *)
Definition all_loose (l : routes) : bool :=
  forallb (fun r => is_some (bget (lit "lr") (na_ps r)) || match na_uri r with ASip u => is_some (bget (lit "lr") (u_params u)) | _ => false end) l.
(** service_route.rs:151-163, 279-291: one route *)
Definition print_route (r : name_addr) : str :=
  match na_display r with Some d => lit """" ++ d ++ lit """ " | None => [] end
  ++ lit "<" ++ any_text (na_uri r) ++ lit ">" ++ flat_map print_param (na_ps r).
(** service_route.rs:146-167, 274-295 [Display] *)
Definition print_routes (l : routes) : str := join (lit ", ") (map print_route l).

(** header_values.rs:91-104 (Path), 68-81 (Service-Route) *)
Fixpoint route_parts (ps : list str) : option routes :=
  match ps with
  | [] => Some []
  | p :: r =>
      match trim p with
      | [] => route_parts r
      | t => match parse_name_addr t, route_parts r with Some na, Some l => Some (na :: l) | _, _ => None end
      end
  end.
(** header_values.rs:86-107 [parse_path], 62-84 [parse_service_route] *)
Fixpoint route_values (vs : list str) : option routes :=
  match vs with
  | [] => Some []
  | v :: r =>
      match split_quoted_commas MAX_ROUTES v with
      | Some ps => match route_parts ps, route_values r with Some a, Some b => Some (a ++ b) | _, _ => None end
      | None => None
      end
  end.
Definition parse_routes (vs : list str) : option routes := match route_values vs with Some l => routes_new l | None => None end.
