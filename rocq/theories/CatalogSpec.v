(** * CatalogSpec: catalogs and slugs *)
From Coq Require Import String Ascii List Sorted NArith.
From Verif Require Import GoSpec SchemaModel InstanceModel CatalogModel.
Import ListNotations.
Local Open Scope string_scope.

(** lexicographic order on pairs of strings *)
Definition pair_lt (a b : string * string) : Prop :=
  slt (fst a) (fst b) \/ (fst a = fst b /\ slt (snd a) (snd b)).

(** [r] is declared by some schema *)
Definition declared (schemas : list schema) (r : rset) : Prop :=
  exists s t, In s schemas /\ In t (sRoleTypes s) /\ rRoleURI t <> "" /\
    rsRole r = rRoleURI t /\ rsTitle r = rDefinition t.

(** [e] is the entity of some context *)
Definition reported (insts : list instance) (e : entity) : Prop :=
  exists i c, In i insts /\ In c (iContexts i) /\ eScheme e <> "" /\ eChar e <> "" /\
    eScheme e = ctxScheme c /\ eChar e = ctxIdentifier c.

(** the canonical list of all things with property [P], by the two keys *)
Definition canonical {A} (key : A -> string * string) (P : A -> Prop) (l : list A) : Prop :=
  (forall x, In x l <-> P x) /\ StronglySorted (fun a b => pair_lt (key a) (key b)) l.

(** 128-bit FNV-1a (constants as published, in decimal), byte by byte *)
Inductive fnv1a : list ascii -> N -> Prop :=
| fnv_start : fnv1a [] 144066263297769815596495629667062367629
| fnv_byte l h c : fnv1a l h ->
    fnv1a (l ++ [c]) ((N.lxor h (N_of_ascii c) * 309485009821345068724781371) mod 340282366920938463463374607431768211456).

(** the value of a lower-case hexadecimal digit *)
Definition hex_val (c : ascii) : option N :=
  match find (fun p => Ascii.eqb (fst p) c)
    (combine (list_ascii_of_string "0123456789abcdef") [0; 1; 2; 3; 4; 5; 6; 7; 8; 9; 10; 11; 12; 13; 14; 15]%N) with
  | Some p => Some (snd p) | None => None end.
Inductive hex_numeral : list ascii -> N -> Prop :=
| hex_empty : hex_numeral [] 0
| hex_more l n c d : hex_numeral l n -> hex_val c = Some d -> hex_numeral (l ++ [c]) (16 * n + d).

(** [s] is the slug of entity [e] and relationship set [r] *)
Definition is_slug (e : entity) (r : rset) (s : string) : Prop :=
  exists h, fnv1a (list_ascii_of_string ((eScheme e ++ "/" ++ eChar e) ++ rsRole r ++ rsTitle r)) h /\
    hex_numeral (list_ascii_of_string s) h /\ String.length s = 32.

(** no two pairs of the catalog share a slug *)
Definition no_collision (insts : list instance) (schemas : list schema) : Prop :=
  forall e r e' r' s, reported insts e -> declared schemas r -> reported insts e' -> declared schemas r' ->
    is_slug e r s -> is_slug e' r' s -> e = e' /\ r = r'.
