(** Where a path leads in a file system without symbolic links. *)
From Coq Require Import Strings.String Strings.Ascii Lists.List Bool.
From Verif Require Import GoBase GoSpec.
Import ListNotations.
Open Scope string_scope.

(** A place: below the root or the working directory ([absolute]), so many
    directories above it (never for an absolute one), then down these names. *)
Record location := Location { absolute : bool; above : nat; names : list string }.

(** A name of a directory entry *)
Definition entry_name_ok (x : string) : Prop :=
  x <> "" /\ x <> "." /\ x <> ".." /\ free_of "/" x.

(** Walking along the segments of a path *)
Inductive walk : location -> list string -> location -> Prop :=
| walk_done : forall l, walk l [] l
| walk_stay : forall l x xs l', x = "" \/ x = "." -> walk l xs l' -> walk l (x :: xs) l'
| walk_back : forall abs up ns n xs l',
    walk (Location abs up ns) xs l' -> walk (Location abs up (ns ++ [n])) (".." :: xs) l'
| walk_top : forall xs l', walk (Location true 0 []) xs l' -> walk (Location true 0 []) (".." :: xs) l'
| walk_up : forall up xs l',
    walk (Location false (S up) []) xs l' -> walk (Location false up []) (".." :: xs) l'
| walk_down : forall abs up ns n xs l', entry_name_ok n ->
    walk (Location abs up (ns ++ [n])) xs l' -> walk (Location abs up ns) (n :: xs) l'.

(** The path leads to the place *)
Definition leads_to (path : string) (l : location) : Prop :=
  exists segs, segs <> [] /\ Forall (free_of "/") segs /\ path = String.concat "/" segs /\
    (((exists rest, path = "/" ++ rest) /\ walk (Location true 0 []) segs l) \/
     ((forall rest, path <> "/" ++ rest) /\ walk (Location false 0 []) segs l)).

(** [l] is the place [d], or below it *)
Definition inside (d l : location) : Prop :=
  exists more, l = Location (absolute d) (above d) (names d ++ more).

Definition below (d : location) (ns : list string) : location :=
  Location (absolute d) (above d) (names d ++ ns).

(** The names in a path: its segments but the empty and the . ones *)
Definition path_names (path : string) (ns : list string) : Prop :=
  exists segs, segs <> [] /\ Forall (free_of "/") segs /\ path = String.concat "/" segs /\
    ns = filter (fun x => negb (String.eqb x "" || String.eqb x ".")) segs.
Definition no_parent (path : string) : Prop :=
  forall ns, path_names path ns -> ~ In ".." ns.
