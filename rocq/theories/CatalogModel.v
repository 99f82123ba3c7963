(** * CatalogModel: pkg/renderables/relationshipSet.go, catalog.go, the entity part of
    contexts.go and the search loop of renderable.go *)
From Verif Require Import GoBase AttrModel SchemaModel LinkbaseModel InstanceModel HydrateModel.
Local Open Scope string_scope.

(** renderable.go:11-14 [RelationshipSet] *)
Record rset := RSet { rsTitle : string; rsRole : string }.
(** renderable.go:21-24 [Entity] *)
Record entity := Entity { eScheme : string; eChar : string }.
(** renderable.go:16-19 [Subject] *)
Record subject := Subject { sbName : string; sbEntity : entity }.

(** Go's [==] on the two structs (map keys) *)
Definition rset_eqb (a b : rset) : bool :=
  String.eqb (rsTitle a) (rsTitle b) && String.eqb (rsRole a) (rsRole b).
Definition entity_eqb (a b : entity) : bool :=
  String.eqb (eScheme a) (eScheme b) && String.eqb (eChar a) (eChar b).

(** relationshipSet.go:22-35; [schemas] in the iteration order of h.Schemas. The
    test in line 23 only skips an empty loop. *)
Definition role_type_rset (e : role_type) : option rset :=
  if nonempty (rRoleURI e) then Some (RSet (rDefinition e) (rRoleURI e)) else None.
Definition dedup_relationship_sets (schemas : list schema) : list rset :=
  uniq rset_eqb (flat_map (fun s => collect role_type_rset (sRoleTypes s)) schemas).
(** relationshipSet.go:11-16 *)
Definition rset_less (a b : rset) : bool :=
  if String.eqb (rsTitle a) (rsTitle b) then String.ltb (rsRole a) (rsRole b)
  else String.ltb (rsTitle a) (rsTitle b).
(** relationshipSet.go:9-18 [sortedRelationshipSets] *)
Definition sorted_relationship_sets (schemas : list schema) : list rset :=
  isort rset_less (dedup_relationship_sets schemas).

(** contexts.go:146-158; [insts] in the iteration order of h.Instances *)
Definition context_entity (c : context) : option entity :=
  if nonempty (ctxScheme c) && nonempty (ctxIdentifier c)
  then Some (Entity (ctxScheme c) (ctxIdentifier c)) else None.
(** contexts.go:144-172 [dedupEntities] *)
Definition dedup_entities (insts : list instance) : list entity :=
  uniq entity_eqb (flat_map (fun i => collect context_entity (iContexts i)) insts).
(** contexts.go:176-181 *)
Definition entity_less (a b : entity) : bool :=
  if String.eqb (eScheme a) (eScheme b) then String.ltb (eChar a) (eChar b)
  else String.ltb (eScheme a) (eScheme b).
(** contexts.go:174-183 [sortedEntities] *)
Definition sorted_entities (insts : list instance) : list entity :=
  isort entity_less (dedup_entities insts).
(** contexts.go:185-190 [stringify] (never called with nil) *)
Definition stringify (e : entity) : string := eScheme e ++ "/" ++ eChar e.

(** ** hash/fnv.New128a and encoding/hex *)
Definition fnv_offset : N := 0x6c62272e07bb014262b821756295c58d.
Definition fnv_prime : N := 2 ^ 88 + 2 ^ 8 + 0x3b.
Fixpoint fnv (h : N) (s : string) : N :=
  match s with
  | EmptyString => h
  | String c r => fnv ((N.lxor h (N_of_ascii c) * fnv_prime) mod 2 ^ 128) r
  end.
Definition hex_digit (d : N) : ascii :=
  ascii_of_N (if (d <? 10)%N then 48 + d else 87 + d).
(** [n] hex digits of [h], most significant first *)
Fixpoint hex (n : nat) (h : N) : string :=
  match n with
  | O => EmptyString
  | S m => String (hex_digit (h / 16 ^ N.of_nat m mod 16)) (hex m h)
  end.
(** catalog.go:53-57 [hash] *)
Definition hash (schemedEntity linkroleURI title : string) : string :=
  hex 32 (fnv fnv_offset (schemedEntity ++ linkroleURI ++ title)).

(** catalog.go:11-16 [Catalog]; the struct json.Marshal is called on; its bytes are [jcatalog] of ResponseModel. *)
Record catalog := Catalog {
  caSubjects : list subject; caRelationshipSets : list rset;
  caNetworks : list (string * list (string * string)); caDocumentName : string }.

(** catalog.go:37-42, renderable.go:93-98: the displayed name *)
Definition entity_name (names : res (list (string * list (string * string)))) (e : entity) : string :=
  match entity_query names (eScheme e) (eChar e) with
  | Ok n => n
  | _ => eScheme e ++ "/" ++ eChar e
  end.

(** catalog.go:31-34 *)
Definition network (rsets : list rset) (e : entity) : list (string * string) :=
  fold_left (fun m r => sset (rsRole r) (hash (stringify e) (rsRole r) (rsTitle r)) m) rsets [].
(** catalog.go:18-51 [MarshalCatalog]; [insts] and [schemas] are the values of the two
    maps in iteration order, [names] the outcome of HydrateEntityNames,
    [is_document] is [h.Document != nil]. *)
Definition marshal_catalog (names : res (list (string * list (string * string))))
    (insts : list instance) (schemas : list schema) (is_document : bool) (entry : string) : catalog :=
  let entities := sorted_entities insts in
  let rsets := sorted_relationship_sets schemas in
  Catalog (map (fun e => Subject (entity_name names e) e) entities) rsets
    (fold_left (fun m e => sset (stringify e) (network rsets e) m) entities [])
    (if is_document then entry else "").

(** renderable.go:26-34 [Renderable]; [G] stands for the grids, languages and label roles *)
Record renderable (G : Type) := Renderable { rnSet : rset; rnSubject : subject; rnGrids : G }.
Arguments Renderable {G}. Arguments rnSet {G}. Arguments rnSubject {G}. Arguments rnGrids {G}.

(** renderable.go:36-42 and 127: the two nested loops, up to the first pair with the
    requested slug *)
Definition find_slug (slug : string) (entities : list entity) (rsets : list rset) : option (entity * rset) :=
  find (fun er => String.eqb slug (hash (stringify (fst er)) (rsRole (snd er)) (rsTitle (snd er))))
       (list_prod entities rsets).
(** renderable.go:36-128 [MarshalRenderable]. [grids entity role] is what the three
    grid goroutines and the post-processing produce (they return no errors). The [err] of
    line 94 is the variable declared in line 50: an EntityQuery error is returned. *)
Definition marshal_renderable {G} (grids : string -> string -> G)
    (names : res (list (string * list (string * string))))
    (insts : list instance) (schemas : list schema) (slug : string) : res (renderable G) :=
  match find_slug slug (sorted_entities insts) (sorted_relationship_sets schemas) with
  | None => Err "object not found"
  | Some (e, r) =>
      let g := grids (stringify e) (rsRole r) in
      match entity_query names (eScheme e) (eChar e) with
      | Ok name => Ok (Renderable r (Subject name e) g)
      | Err m => Err m
      | Panic => Panic
      end
  end.
