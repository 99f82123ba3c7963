(** * BrowserSpec: addresses of files, and following redirects *)
From Coq Require Import String Ascii List.
From Verif Require Import GoBase GoSpec PathSpec WebModel RouterModel BrowserModel.
Import ListNotations.
Local Open Scope string_scope.

(** The characters of RFC 3986, 2.3, that mean the same in a name and in a URL *)
Definition unreserved : string := "ABCDEFGHIJKLMNOPQRSTUVWXYZabcdefghijklmnopqrstuvwxyz0123456789-._~".
Definition plain (x : string) : Prop :=
  entry_name_ok x /\ forall c, In c (list_ascii_of_string x) -> In c (list_ascii_of_string unreserved).

(** The address of the file with these directories and this name *)
Definition address (ns : list string) : string := "/" ++ String.concat "/" ns.
(** the address of a directory *)
Definition directory_address (ns : list string) : string :=
  match ns with [] => "/" | _ => address ns ++ "/" end.

(** A relative reference whose path has nothing to decode: its path and its query (RFC 3986, 4.2) *)
Definition reference (r path query : string) : Prop :=
  free_of "?" path /\ free_of "#" path /\ free_of ":" path /\ free_of "%" path /\
  ((query = "" /\ r = path) \/ (query <> "" /\ free_of "#" query /\ r = path ++ "?" ++ query)).

(** Where the path of a reference leads from an address (RFC 3986, 5.2.3 and 5.2.4); only the
    forms that occur here *)
Inductive merges : string -> string -> string -> Prop :=
| to_here a x : free_of "/" x -> merges (a ++ "/" ++ x) "./" (a ++ "/")
| to_name a x y : free_of "/" x -> entry_name_ok y -> merges (a ++ "/" ++ x) y (a ++ "/" ++ y)
| to_below a x y : free_of "/" x -> entry_name_ok y -> merges (a ++ "/" ++ x) (y ++ "/") (a ++ "/" ++ y ++ "/")
| to_beside a x y : entry_name_ok x -> entry_name_ok y -> merges (a ++ "/" ++ x ++ "/") ("../" ++ y) (a ++ "/" ++ y).

(** A browser gets an address and follows the redirects. *)
Section Follow.
  Variable get : string -> string -> answer.
  Inductive reaches : string -> string -> response -> Prop :=
  | there path query x : get path query = Answer (Some x) -> status x <> 301 -> reaches path query x
  | onward path query x location p path' query' y :
      get path query = Answer (Some x) -> status x = 301 -> header x = [("Location", location)] ->
      reference location p query' -> merges path p path' -> reaches path' query' y -> reaches path query y.
End Follow.

Section Tree.
  Variable m : site.
  (** what is at a place does not depend on how the path to it is written *)
  Definition one_place : Prop := forall p p' l, leads_to p l -> leads_to p' l -> site_open m p = site_open m p'.
  (** the directory of the web page in the current directory *)
  Definition page_directory (l : location) : Prop :=
    exists c, leads_to (site_cwd m) c /\ l = below c ["goldlord-midas"].
  (** what is there under these names *)
  Definition at_names (ns : list string) (o : opened) : Prop :=
    exists l path, page_directory l /\ leads_to path (below l ns) /\ site_open m path = o.
  (** the directory listing *)
  Definition listing_at (ns : list string) (page : string) : Prop :=
    exists l path, page_directory l /\ leads_to path (below l ns) /\ site_listing m path = page.
End Tree.

(** Two machines with the same current directory whose files in the page's directory are the same *)
Definition same_page (m m' : site) : Prop :=
  site_cwd m = site_cwd m' /\ (forall name data, site_type m name data = site_type m' name data) /\
  forall path l d, leads_to path l -> page_directory m d -> inside d l ->
    site_open m path = site_open m' path /\ site_listing m path = site_listing m' path.
