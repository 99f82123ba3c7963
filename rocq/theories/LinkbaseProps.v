(** * LinkbaseProps: C46-C48 (linkbases) *)
From Verif Require Import GoBase GoSpec GoFacts AttrModel AttrSpec SchemaModel SchemaSpec SchemaProofs
  LinkbaseModel LinkbaseSpec LinkbaseProofs SchemaProps.
Local Open Scope string_scope.

Section Numbers.
Variable pf : string -> f64 * bool.

Lemma hydrate_linkbase_spec {arc} (harc : elem -> option arc) is_a shuffle f file lb :
  (forall e a, harc e = Some a <-> is_a e a) ->
  (forall l, Permutation (shuffle l) l) ->
  hydrate_linkbase harc shuffle (Some f) file = Ok lb ->
  lbFileName lb = file /\ image_of is_role_ref (lf_roleRef f) (lbRoleRefs lb) /\
  exists links, image_of (is_link is_a) (lf_links f) links /\ merges links (lbLinks lb).
Proof.
  intros HA SH. unfold hydrate_linkbase. destruct (nonempty file); [|discriminate]. simpl.
  intro H; injection H; intros <-. simpl. split; auto. split.
  - apply collect_image. apply hydrate_role_ref_iff.
  - exists (collect (hydrate_link harc) (lf_links f)). split.
    + apply collect_image. intros. now apply hydrate_link_iff.
    + now apply dedup_merges.
Qed.

(** C46/C48: for every file, every name, every iteration order of the role map:
    the role references, links, locators and arcs of the result are exactly the
    well-formed ones of the file, merged per role. *)
Theorem C46_presentation_linkbase :
  forall shuffle f file lb, (forall l, Permutation (shuffle l) l) ->
    hydrate_linkbase (hydrate_parc pf) shuffle (Some f) file = Ok lb ->
    lbFileName lb = file /\ image_of is_role_ref (lf_roleRef f) (lbRoleRefs lb) /\
    exists links, image_of (is_link (is_presentation_arc pf)) (lf_links f) links /\
      merges links (lbLinks lb).
Proof. intros. eapply hydrate_linkbase_spec; eauto. apply hydrate_parc_iff. Qed.

Theorem C46_definition_linkbase :
  forall shuffle f file lb, (forall l, Permutation (shuffle l) l) ->
    hydrate_linkbase (hydrate_darc pf) shuffle (Some f) file = Ok lb ->
    lbFileName lb = file /\ image_of is_role_ref (lf_roleRef f) (lbRoleRefs lb) /\
    exists links, image_of (is_link (is_definition_arc pf)) (lf_links f) links /\
      merges links (lbLinks lb).
Proof. intros. eapply hydrate_linkbase_spec; eauto. apply hydrate_darc_iff. Qed.

Theorem C46_calculation_linkbase :
  forall shuffle f file lb, (forall l, Permutation (shuffle l) l) ->
    hydrate_linkbase (hydrate_carc pf) shuffle (Some f) file = Ok lb ->
    lbFileName lb = file /\ image_of is_role_ref (lf_roleRef f) (lbRoleRefs lb) /\
    exists links, image_of (is_link (is_calculation_arc pf)) (lf_links f) links /\
      merges links (lbLinks lb).
Proof. intros. eapply hydrate_linkbase_spec; eauto. apply hydrate_carc_iff. Qed.

(** label links are not merged *)
Theorem C46_label_linkbase :
  forall f file lb, hydrate_label_linkbase pf (Some f) file = Ok lb ->
    llFileName lb = file /\ image_of is_role_ref (lf_roleRef f) (llRoleRefs lb) /\
    image_of (is_label_link pf) (lf_links f) (llLinks lb).
Proof.
  intros f file lb. unfold hydrate_label_linkbase. destruct (nonempty file); [|discriminate]. simpl.
  intro H; injection H; intros <-. simpl. split; auto. split; apply collect_image.
  - apply hydrate_role_ref_iff.
  - intros; apply hydrate_label_link_iff.
Qed.

(** loading fails exactly without a file name or without a file *)
Theorem C46_fails_exactly_without_name_or_file :
  forall (arc : Type) (harc : elem -> option arc) shuffle f file,
    (hydrate_linkbase harc shuffle f file <> Panic /\
     ((exists m, hydrate_linkbase harc shuffle f file = Err m) <-> file = "" \/ f = None)) /\
    (hydrate_label_linkbase pf f file <> Panic /\
     ((exists m, hydrate_label_linkbase pf f file = Err m) <-> file = "" \/ f = None)).
Proof.
  intros arc harc shuffle f file. unfold hydrate_linkbase, hydrate_label_linkbase.
  destruct (nonempty file) eqn:N; simpl.
  - apply nonempty_iff in N. destruct f; repeat split; try discriminate; eauto;
      try (intros (m&H); discriminate); intros [H|H]; congruence.
  - apply nonempty_false in N. repeat split; try discriminate; eauto.
Qed.

(** C47. Refuted: closed="true" is not honoured ... *)
Definition xl (n v : string) := XAttr (XName "http://www.w3.org/1999/xlink" n) v.
Definition ex_arc (extra : list xattr) : elem :=
  Elem (XName "http://www.xbrl.org/2003/linkbase" "definitionArc")
    ([xl "type" "arc"; xl "arcrole" "http://xbrl.org/int/dim/arcrole/all"; xl "from" "a"; xl "to" "b";
      pa "order" "1"] ++ extra)%list "".
Theorem C47_closed_refuted :
  ~ (forall e a, hydrate_darc pf e = Some a -> forall b, closed_attr e b -> daClosed a = b).
Proof.
  intro H. specialize (H (ex_arc [pa "closed" "true"]) _ eq_refl true).
  simpl in H. discriminate H. left. exists "true". split.
  - apply attr_val_iff. exists (pa "closed" "true"). split; reflexivity.
  - left. simpl. auto 10.
Qed.

(** ... usable="false" is read as usable, and a missing attribute as not usable. *)
Theorem C47_usable_refuted :
  ~ (forall e a, hydrate_darc pf e = Some a -> forall b, usable_attr e b -> daUsable a = b) /\
  exists e e' a a', hydrate_darc pf e = Some a /\ usable_attr e false /\ daUsable a = true /\
                    hydrate_darc pf e' = Some a' /\ usable_attr e' true /\ daUsable a' = false.
Proof.
  assert (U : usable_attr (ex_arc [pa "usable" "false"]) false).
  { left. exists "false". split.
    - apply attr_val_iff. exists (pa "usable" "false"). split; reflexivity.
    - right. simpl. auto 10. }
  assert (U' : usable_attr (ex_arc []) true).
  { right. split; auto. apply find_attr_no. reflexivity. }
  split.
  - intro H. specialize (H (ex_arc [pa "usable" "false"]) _ eq_refl false U). discriminate H.
  - exists (ex_arc [pa "usable" "false"]), (ex_arc []). do 2 eexists. repeat split; eauto.
Qed.

(** What holds: closed="false" (or absent) and usable="true" are read correctly;
    Closed is never set. Missing: closed="true", usable="false", absent usable. *)
Theorem C47_flags_partial :
  forall e a, hydrate_darc pf e = Some a ->
    (closed_attr e false -> daClosed a = false) /\ daClosed a = false /\
    (forall v, attr_val (eattrs e) "usable" v -> bool_lit v true -> daUsable a = true).
Proof.
  intros e a H. apply hydrate_darc_iff in H as (_&_&_&C&U). repeat split; auto.
  intros v Hv Hb. apply U. exists v, true. auto.
Qed.

(** C48. The merged links are one per role, complete and in document order, and
    the iteration order of the map only permutes them. *)
Theorem C48_merge :
  forall (arc : Type) shuffle (links : list (link arc)), (forall l, Permutation (shuffle l) l) ->
    merges links (dedup_links shuffle links).
Proof. intros. now apply dedup_merges. Qed.

Theorem C48_order_irrelevant :
  forall (arc : Type) shuffle shuffle' (links : list (link arc)),
    (forall l, Permutation (shuffle l) l) -> (forall l, Permutation (shuffle' l) l) ->
    Permutation (dedup_links shuffle links) (dedup_links shuffle' links).
Proof. intros. eapply merges_fun; apply dedup_merges; auto. Qed.
End Numbers.

Print Assumptions C46_presentation_linkbase.
Print Assumptions C46_definition_linkbase.
Print Assumptions C46_calculation_linkbase.
Print Assumptions C46_label_linkbase.
Print Assumptions C46_fails_exactly_without_name_or_file.
Print Assumptions C47_closed_refuted.
Print Assumptions C47_usable_refuted.
Print Assumptions C47_flags_partial.
Print Assumptions C48_merge.
Print Assumptions C48_order_irrelevant.

(** a linkbase with two links of one role, an arc without order, and one whose
    order cannot be read *)
Definition ex_pf (s : string) : f64 * bool :=
  if String.eqb s "1" then (S754_finite false 4503599627370496 (-52), false) else (S754_zero false, true).
Definition ex_le (role : string) (arcs : list elem) : link_elem :=
  LinkElem [xl "type" "extended"; xl "role" role]
    [Elem (XName "" "loc") [xl "type" "locator"; xl "label" "a"; xl "href" "s.xsd#A"] ""]
    arcs [].
Definition ex_linkbase : linkbase_file :=
  LinkbaseFile [Elem (XName "http://www.xbrl.org/2003/linkbase" "roleRef") [pa "roleURI" "urn:r"; xl "href" "s.xsd#r"] ""]
    [ex_le "urn:r" [ex_arc [pa "preferredLabel" "urn:total"]]; ex_le "urn:q" [];
     ex_le "urn:r" [Elem (XName "" "presentationArc") [xl "type" "arc"; xl "arcrole" "urn:x"; xl "from" "a"; xl "to" "c"] "";
                    Elem (XName "" "presentationArc") [xl "type" "arc"; xl "arcrole" "urn:x"; xl "from" "b"; xl "to" "c"; pa "order" "oops"] ""]].
Example C46_example :
  hydrate_linkbase (hydrate_parc ex_pf) (fun l => l) (Some ex_linkbase) "p.xml"
  = Ok (Linkbase "p.xml" [RoleRef "urn:r" "s.xsd#r"]
     [Link "urn:r" [Loc "s.xsd#A" "a"; Loc "s.xsd#A" "a"]
        [PArc (S754_finite false 4503599627370496 (-52)) "http://xbrl.org/int/dim/arcrole/all" "a" "b" "urn:total";
         PArc (S754_finite false 9007199254740991 971) "urn:x" "b" "c" ""];
      Link "urn:q" [Loc "s.xsd#A" "a"] []]).
Proof. reflexivity. Qed.
