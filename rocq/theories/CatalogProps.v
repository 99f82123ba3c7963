(** * CatalogProps: C07-C13 *)
From Verif Require Import GoBase GoSpec GoFacts AttrModel SchemaModel SchemaSpec SchemaProofs LinkbaseModel InstanceModel
  CatalogModel CatalogSpec CatalogProofs.
Local Open Scope string_scope.

Definition ex_schema_with (l : list (string * string)) : schema :=
  Schema "t.xsd" (map (fun p => RoleType (fst p) "id" (snd p) []) l) [].
Definition ex_inst_with (l : list (string * string)) : instance :=
  Instance "i.xml" (map (fun p => Context "c" (fst p) (snd p) (DimContext [] []) "" "" "" (DimContext [] [])) l) [] [] [].

(** C07 *)
Theorem C07_relationship_sets :
  forall names insts schemas doc entry,
    canonical (fun r => (rsTitle r, rsRole r)) (declared schemas)
      (caRelationshipSets (marshal_catalog names insts schemas doc entry)).
Proof. intros. apply rsets_canonical. Qed.
Print Assumptions C07_relationship_sets.
Theorem C07_order_independent :
  forall names insts schemas schemas' doc entry, Permutation schemas schemas' ->
    caRelationshipSets (marshal_catalog names insts schemas doc entry) =
    caRelationshipSets (marshal_catalog names insts schemas' doc entry).
Proof.
  intros. eapply canonical_unique; [apply rsets_canonical|].
  destruct (rsets_canonical schemas') as [E S]. split; auto. intro x. rewrite E.
  unfold declared. split; intros (s&t&Hs&R); exists s, t; (split; [|exact R]);
    (eapply Permutation_in; [|exact Hs]); auto using Permutation_sym.
Qed.
Print Assumptions C07_order_independent.
Example C07_example :
  sorted_relationship_sets [ex_schema_with [("r2", "B"); ("r1", "B"); ("", "A")]; ex_schema_with [("r1", "B"); ("r9", "A")]]
  = [RSet "A" "r9"; RSet "B" "r1"; RSet "B" "r2"].
Proof. reflexivity. Qed.

(** C08 *)
Theorem C08_subjects :
  forall names insts schemas doc entry,
    canonical (fun e => (eScheme e, eChar e)) (reported insts)
      (map sbEntity (caSubjects (marshal_catalog names insts schemas doc entry))).
Proof.
  intros. unfold marshal_catalog. cbn [caSubjects]. rewrite map_map. cbn [sbEntity]. rewrite map_id.
  apply entities_canonical.
Qed.
Print Assumptions C08_subjects.
Theorem C08_order_independent :
  forall names insts insts' schemas doc entry, Permutation insts insts' ->
    caSubjects (marshal_catalog names insts schemas doc entry) =
    caSubjects (marshal_catalog names insts' schemas doc entry).
Proof.
  intros. unfold marshal_catalog. cbn [caSubjects]. f_equal.
  eapply canonical_unique; [apply entities_canonical|].
  destruct (entities_canonical insts') as [E S]. split; auto. intro x. rewrite E.
  unfold reported. split; intros (i&c&Hi&R); exists i, c; (split; [|exact R]);
    (eapply Permutation_in; [|exact Hi]); auto using Permutation_sym.
Qed.
Print Assumptions C08_order_independent.
Example C08_example :
  sorted_entities [ex_inst_with [("cik", "2"); ("cik", "1"); ("", "3")]; ex_inst_with [("cik", "1"); ("abc", "9")]]
  = [Entity "abc" "9"; Entity "cik" "1"; Entity "cik" "2"].
Proof. reflexivity. Qed.

(** C11 *)
Theorem C11_slug :
  forall e r, let s := hash (stringify e) (rsRole r) (rsTitle r) in
    is_slug e r s /\ forall s', is_slug e r s' -> s' = s.
Proof. intros. split; [apply hash_slug|]. intros s' H. eapply is_slug_fun; eauto using hash_slug. Qed.
Print Assumptions C11_slug.
(** every character is a lower-case hexadecimal digit *)
Theorem C11_alphabet :
  forall e r s, is_slug e r s -> forall c, In c (list_ascii_of_string s) -> In c (list_ascii_of_string "0123456789abcdef").
Proof.
  intros e r s (h&_&H&_). induction H as [|l n c d H IH V]; intros x Hx; [destruct Hx|].
  apply in_app_or in Hx as [Hx|[<-|[]]]; auto.
  clear -V. unfold hex_val in V. destruct (find _ _) as [p|] eqn:F; [|discriminate].
  apply find_some in F as [I E]. destruct p as [a m]. apply in_combine_l in I. simpl in E.
  apply Ascii.eqb_eq in E. now subst.
Qed.
Print Assumptions C11_alphabet.
(** published FNV-1a-128 test vectors: "" and "a" *)
Example C11_example :
  hash "" "" "" = "6c62272e07bb014262b821756295c58d" /\ hash "a" "" "" = "d228cb696f1a8caf78912b704e4a8964".
Proof. split; vm_compute; reflexivity. Qed.

(** C13 *)
Theorem C13_document_name :
  forall names insts schemas doc entry,
    caDocumentName (marshal_catalog names insts schemas doc entry) = if doc then entry else "".
Proof. reflexivity. Qed.
Print Assumptions C13_document_name.
(** Every subject and every declared role have a slug: that of the role's last
    relationship set (there is more than one if the role is declared with
    different definitions). *)
Theorem C13_networks :
  forall names insts schemas doc entry e r,
    let c := marshal_catalog names insts schemas doc entry in
    reported insts e -> declared schemas r ->
    exists net r' slug,
      sget (eScheme e ++ "/" ++ eChar e) (caNetworks c) = Some net /\
      sget (rsRole r) net = Some slug /\
      last_such (fun r' => rsRole r' = rsRole r) (caRelationshipSets c) r' /\ is_slug e r' slug.
Proof.
  intros names insts schemas doc entry e r c He Hr. subst c. unfold marshal_catalog. cbn [caNetworks caRelationshipSets].
  rewrite (fold_sset_get stringify (network (sorted_relationship_sets schemas))).
  destruct (entities_canonical insts) as [EE _]. destruct (rsets_canonical schemas) as [ER _].
  assert (He' : In e (rev (sorted_entities insts))) by (apply -> in_rev; now apply EE).
  change (eScheme e ++ "/" ++ eChar e) with (stringify e).
  destruct (find (fun x => String.eqb (stringify x) (stringify e)) (rev (sorted_entities insts))) as [e'|] eqn:F.
  2:{ rewrite find_None_iff in F. specialize (F e He'). cbv beta in F. rewrite seqb_refl in F. discriminate. }
  apply find_some in F as [_ F]. apply String.eqb_eq in F.
  exists (network (sorted_relationship_sets schemas) e').
  assert (Hr' : In r (rev (sorted_relationship_sets schemas))) by (apply -> in_rev; now apply ER).
  unfold network. rewrite (fold_sset_get rsRole (fun r => hash (stringify e') (rsRole r) (rsTitle r))).
  destruct (find (fun x => String.eqb (rsRole x) (rsRole r)) (rev (sorted_relationship_sets schemas))) as [r'|] eqn:G.
  2:{ rewrite find_None_iff in G. specialize (G r Hr'). cbv beta in G. rewrite seqb_refl in G. discriminate. }
  exists r', (hash (stringify e') (rsRole r') (rsTitle r')). repeat split.
  - rewrite find_first_such in G. destruct G as (l1&l2&E&P&Q). exists (rev l2), (rev l1). repeat split.
    + rewrite <- (rev_involutive (sorted_relationship_sets schemas)), E, rev_app_distr. simpl. now rewrite <- app_assoc.
    + now apply String.eqb_eq.
    + intros y Hy Z. apply in_rev in Hy. apply (Q y Hy). now apply String.eqb_eq.
  - rewrite F. apply hash_slug.
Qed.
Print Assumptions C13_networks.

(** C09. Every slug of the catalog is found, and what it opens has that slug. *)
Theorem C09_every_slug_opens :
  forall (G : Type) (grids : string -> string -> G) names insts schemas doc entry k net role slug,
    let c := marshal_catalog names insts schemas doc entry in
    sget k (caNetworks c) = Some net -> sget role net = Some slug ->
    exists e r, reported insts e /\ declared schemas r /\ is_slug e r slug /\
      match names with
      | Ok _ => exists n, marshal_renderable grids names insts schemas slug =
                  Ok (Renderable r (Subject n e) (grids (eScheme e ++ "/" ++ eChar e) (rsRole r)))
      | Err m => marshal_renderable grids names insts schemas slug = Err m
      | Panic => marshal_renderable grids names insts schemas slug = Panic
      end.
Proof.
  intros G grids names insts schemas doc entry k net role slug c. subst c. unfold marshal_catalog. cbn [caNetworks].
  rewrite (fold_sset_get stringify (network (sorted_relationship_sets schemas))).
  destruct (entities_canonical insts) as [EE _]. destruct (rsets_canonical schemas) as [ER _].
  destruct (find _ (rev (sorted_entities insts))) as [e'|] eqn:F; [|discriminate].
  intro H; injection H; intros <-. unfold network.
  rewrite (fold_sset_get rsRole (fun r => hash (stringify e') (rsRole r) (rsTitle r))).
  destruct (find _ (rev (sorted_relationship_sets schemas))) as [r'|] eqn:D; [|discriminate].
  intro K; injection K; intros <-.
  apply find_some in F as [F _]. apply find_some in D as [D _]. apply in_rev in F, D.
  unfold marshal_renderable.
  destruct (find_slug _ _ _) as [[e r]|] eqn:S.
  - exists e, r. rewrite find_slug_first in S. destruct S as (l1&l2&E&P&_).
    assert (I : In (e, r) (list_prod (sorted_entities insts) (sorted_relationship_sets schemas))) by (rewrite E; apply in_or_app; simpl; auto).
    apply in_prod_iff in I as [I1 I2]. apply EE in I1. apply ER in I2. repeat split; auto.
    unfold entity_query. destruct names as [ns|m|]; simpl; auto.
    change (eScheme e ++ String "/" (eChar e)) with (stringify e).
    destruct (sget (eScheme e) ns) as [x|]; [destruct (sget (eChar e) x)|]; eauto.
  - rewrite find_slug_None in S. exfalso. apply (S e' r'); auto. apply hash_slug.
Qed.
Print Assumptions C09_every_slug_opens.

(** C10. What a slug opens, exactly: the first pair, subjects first, that has it. *)
Theorem C10_opens_first_partial :
  forall (G : Type) (grids : string -> string -> G) names insts schemas slug rn,
    marshal_renderable grids names insts schemas slug = Ok rn ->
    first_such (fun p => is_slug (fst p) (snd p) slug)
      (list_prod (sorted_entities insts) (sorted_relationship_sets schemas)) (sbEntity (rnSubject rn), rnSet rn) /\
    rnGrids rn = grids (eScheme (sbEntity (rnSubject rn)) ++ "/" ++ eChar (sbEntity (rnSubject rn))) (rsRole (rnSet rn)).
Proof.
  intros G grids names insts schemas slug rn. unfold marshal_renderable.
  destruct (find_slug _ _ _) as [[e r]|] eqn:S; [|discriminate].
  destruct (entity_query names (eScheme e) (eChar e)) as [n|m|]; try discriminate.
  intro H; injection H; intros <-. simpl. split; auto. now apply find_slug_first.
Qed.
Print Assumptions C10_opens_first_partial.
(** So a slug opens its own pair unless another pair of the catalog has the same
    slug. Missing: colliding pairs. *)
Theorem C10_opens_own_pair_partial :
  forall (G : Type) (grids : string -> string -> G) names ns insts schemas e r slug,
    no_collision insts schemas -> names = Ok ns -> reported insts e -> declared schemas r -> is_slug e r slug ->
    exists n, marshal_renderable grids names insts schemas slug =
      Ok (Renderable r (Subject n e) (grids (eScheme e ++ "/" ++ eChar e) (rsRole r))).
Proof.
  intros G grids names ns insts schemas e r slug NC -> He Hr S. unfold marshal_renderable.
  destruct (entities_canonical insts) as [EE _]. destruct (rsets_canonical schemas) as [ER _].
  destruct (find_slug _ _ _) as [[e' r']|] eqn:F.
  - rewrite find_slug_first in F. destruct F as (l1&l2&E&P&_).
    assert (I : In (e', r') (list_prod (sorted_entities insts) (sorted_relationship_sets schemas))) by (rewrite E; apply in_or_app; simpl; auto).
    apply in_prod_iff in I as [I1 I2]. apply EE in I1. apply ER in I2. simpl in P.
    destruct (NC e' r' e r slug) as [-> ->]; auto.
    unfold entity_query. simpl. change (eScheme e ++ String "/" (eChar e)) with (stringify e).
    destruct (sget (eScheme e) ns) as [x|]; [destruct (sget (eChar e) x)|]; eauto.
  - rewrite find_slug_None in F. exfalso. apply (F e r); auto; [now apply EE|now apply ER].
Qed.
Print Assumptions C10_opens_own_pair_partial.
(** Refuted: two role types whose URI and definition concatenate to the same text
    share a slug; the slug of the second opens the first. *)
Definition ex_colliding := [ex_schema_with [("http://x/role/A", "1 - Cover"); ("http://x/role/A1", " - Cover")]].
Theorem C10_opens_own_pair_refuted :
  ~ (forall names ns insts schemas e r slug,
       names = Ok ns -> reported insts e -> declared schemas r -> is_slug e r slug ->
       exists rn, marshal_renderable (fun _ _ => tt) names insts schemas slug = Ok rn /\
         rnSet rn = r /\ sbEntity (rnSubject rn) = e).
Proof.
  intro H.
  destruct (H (Ok []) [] [ex_inst_with [("cik", "1")]] ex_colliding (Entity "cik" "1") (RSet "1 - Cover" "http://x/role/A")
              (hash "cik/1" "http://x/role/A" "1 - Cover") eq_refl) as (rn&E&R&_).
  - apply entities_canonical. simpl. auto.
  - apply rsets_canonical. vm_compute. auto.
  - apply (hash_slug (Entity "cik" "1") (RSet "1 - Cover" "http://x/role/A")).
  - vm_compute in E. injection E; intros <-. discriminate R.
Qed.
Print Assumptions C10_opens_own_pair_refuted.
Example C10_example :
  exists rn, marshal_renderable (fun e r => (e, r)) (Ok []) [ex_inst_with [("cik", "1"); ("cik", "2")]]
    [ex_schema_with [("r2", "B"); ("r1", "A")]] (hash "cik/2" "r2" "B") = Ok rn /\
    rn = Renderable (RSet "B" "r2") (Subject "cik/2" (Entity "cik" "2")) ("cik/2", "r2").
Proof. eexists. split; vm_compute; reflexivity. Qed.

(** C12. The catalog always succeeds and falls back to scheme/identifier ... *)
Theorem C12_catalog_names :
  forall names insts schemas doc entry s, In s (caSubjects (marshal_catalog names insts schemas doc entry)) ->
    sbName s =
    match names with
    | Ok ns => match sget (eScheme (sbEntity s)) ns with
               | Some m => match sget (eChar (sbEntity s)) m with
                           | Some n => n | None => eScheme (sbEntity s) ++ "/" ++ eChar (sbEntity s) end
               | None => eScheme (sbEntity s) ++ "/" ++ eChar (sbEntity s)
               end
    | _ => eScheme (sbEntity s) ++ "/" ++ eChar (sbEntity s)
    end.
Proof.
  intros names insts schemas doc entry s H. unfold marshal_catalog in H. cbn [caSubjects] in H.
  apply in_map_iff in H as (e&<-&_). simpl. unfold entity_name, entity_query.
  destruct names as [ns|m|]; simpl; auto. destruct (sget (eScheme e) ns) as [x|]; auto. destruct (sget (eChar e) x); auto.
Qed.
Print Assumptions C12_catalog_names.
(** ... the renderable does so only if the list can be read (missing: an unreadable list) ... *)
Theorem C12_renderable_names_partial :
  forall (G : Type) (grids : string -> string -> G) ns insts schemas slug,
    (exists e r, reported insts e /\ declared schemas r /\ is_slug e r slug) ->
    exists r s g, marshal_renderable grids (Ok ns) insts schemas slug = Ok (Renderable r s g) /\
      sbName s = match sget (eScheme (sbEntity s)) ns with
                 | Some m => match sget (eChar (sbEntity s)) m with
                             | Some n => n | None => eScheme (sbEntity s) ++ "/" ++ eChar (sbEntity s) end
                 | None => eScheme (sbEntity s) ++ "/" ++ eChar (sbEntity s)
                 end.
Proof.
  intros G grids ns insts schemas slug (e&r&He&Hr&S). unfold marshal_renderable.
  destruct (entities_canonical insts) as [EE _]. destruct (rsets_canonical schemas) as [ER _].
  destruct (find_slug _ _ _) as [[e' r']|] eqn:F.
  - exists r'. unfold entity_query. simpl.
    destruct (sget (eScheme e') ns) as [m|] eqn:Q; [destruct (sget (eChar e') m) eqn:Q2|];
      do 2 eexists; (split; [reflexivity|]); simpl; rewrite Q; auto; now rewrite Q2.
  - rewrite find_slug_None in F. exfalso. apply (F e r); auto; [now apply EE|now apply ER].
Qed.
Print Assumptions C12_renderable_names_partial.
(** ... and otherwise fails. *)
Theorem C12_renderable_names_refuted :
  ~ (forall names insts schemas e r slug, names <> Panic ->
       reported insts e -> declared schemas r -> is_slug e r slug ->
       exists rn, marshal_renderable (fun _ _ => tt) names insts schemas slug = Ok rn).
Proof.
  intro H.
  destruct (H (Err "open names.json: no such file or directory") [ex_inst_with [("cik", "1")]] [ex_schema_with [("r", "A")]]
              (Entity "cik" "1") (RSet "A" "r") (hash "cik/1" "r" "A")) as [rn E].
  - discriminate.
  - apply entities_canonical. simpl. auto.
  - apply rsets_canonical. simpl. auto.
  - apply (hash_slug (Entity "cik" "1") (RSet "A" "r")).
  - vm_compute in E. discriminate E.
Qed.
Print Assumptions C12_renderable_names_refuted.
