(** * LabelProps: C24, C34-C36 *)
From Verif Require Import GoBase GoSpec GoFacts LinkbaseModel LabelModel LabelSpec LabelProofs.
Local Open Scope string_scope.

(** C24 *)
Theorem C24_locator :
  forall (arc : Type) (lb : linkbase arc) role label href,
    map_locator_to_href role lb label = href <-> locates lb role label href.
Proof.
  intros. split.
  - intros <-. apply locates_fun.
  - intro H. eapply locates_unique; eauto using locates_fun.
Qed.
Print Assumptions C24_locator.
Example C24_example :
  let lb := Linkbase "p.xml" [RoleRef "r1" "x#r1"]
              [Link "r2" [Loc "no#1" "a"] []; Link "r1" [Loc "nohash" "a"; Loc "s.xsd#A" "a"; Loc "s.xsd#A2" "a"] ([] : list unit)] in
  map_locator_to_href "r1" lb "a" = "s.xsd#A" /\ map_locator_to_href "r2" lb "a" = "#a" /\
  map_locator_to_href "r1" lb "b" = "#b".
Proof. repeat split; reflexivity. Qed.

(** C34. For every order in which the label linkbases are visited. *)
Theorem C34_texts :
  forall labels href role lang text,
    holds (get_label labels href) role lang text <->
    (role = "Default" /\ lang = "Unlabelled" /\ text = href) \/
    (role = "Default" /\ lang = "Truncated" /\ exists a b, href = a ++ "#" ++ b /\ free_of "#" a /\ text = "#" ++ b) \/
    (exists p, last_such (labels_as href role lang) (paths labels) p /\ text = llCharData (p_label p)).
Proof.
  intros. rewrite (holds_lk _ _ _ _ (get_label_is_pack labels href)).
  unfold get_label. rewrite modifiers_flat, lk_fold.
  assert (NL : forall p r l, labels_as href r l p -> l <> "Unlabelled" /\ l <> "Truncated").
  { intros p r l (_&_&H). unfold api_lang in H. destruct H as [H|[H|[]]]; injection H; intros <- _; split; discriminate. }
  destruct (find _ (rev (paths labels))) as [p|] eqn:F.
  - rewrite find_rev_last in F.
    assert (L : last_such (labels_as href role lang) (paths labels) p).
    { eapply last_such_iff; [|exact F]. intros y _. cbv beta.
      rewrite andb_true_iff, connectsbP, labelsbP. unfold labels_as. tauto. }
    assert (N := L). destruct N as (l1&l2&_&N&_). apply NL in N as [N1 N2]. split.
    + intro H. injection H; intros <-. eauto.
    + intros [(_&H&_)|[(_&H&_)|(p'&L'&->)]]; [congruence..|]. f_equal.
      assert (p = p') as ->; auto. clear -L L'.
      destruct L as (a&b&E&P&Q). destruct L' as (a'&b'&E'&P'&Q').
      assert (F1 : first_such (labels_as href role lang) (rev (paths labels)) p).
      { exists (rev b), (rev a). rewrite E, rev_app_distr. simpl. rewrite <- app_assoc. repeat split; auto; try apply P.
        intros y Hy. apply in_rev in Hy. auto. }
      assert (F2 : first_such (labels_as href role lang) (rev (paths labels)) p').
      { exists (rev b'), (rev a'). rewrite E', rev_app_distr. simpl. rewrite <- app_assoc. repeat split; auto; try apply P'.
        intros y Hy. apply in_rev in Hy. auto. }
      eapply first_such_unique; eauto.
  - rewrite find_rev_None in F.
    assert (NP : ~ exists p, last_such (labels_as href role lang) (paths labels) p /\ text = llCharData (p_label p)).
    { intros (p&(l1&l2&E&(P1&P2&P3)&_)&_). assert (I : In p (paths labels)) by (rewrite E; apply in_or_app; simpl; auto).
      specialize (F p I). cbv beta in F. apply connectsbP in P1. rewrite P1 in F. simpl in F.
      rewrite (proj2 (labelsbP role lang (p_label p))) in F; [discriminate|auto]. }
    unfold lk. cbn [mget].
    destruct (String.eqb Default role) eqn:ER; [apply String.eqb_eq in ER; subst role|apply String.eqb_neq in ER].
    2:{ split; [discriminate|]. intros [(H&_)|[(H&_)|H]]; [|
          |contradiction]; exfalso; apply ER; auto. }
    cbn [mget].
    destruct (String.eqb PureLabel lang) eqn:EP; [apply String.eqb_eq in EP; subst lang|apply String.eqb_neq in EP].
    { split.
      - intro H. injection H; intros <-. auto.
      - intros [(_&_&->)|[(_&H&_)|H]]; auto; [discriminate H|contradiction]. }
    destruct (cut "#" href) as [[a b]|] eqn:C.
    + apply cut_Some_iff in C as [C C']. cbn [mget].
      destruct (String.eqb BriefLabel lang) eqn:EB; [apply String.eqb_eq in EB; subst lang|apply String.eqb_neq in EB].
      * split.
        -- intro H. injection H; intros <-. right; left. repeat split; auto. exists a, b. auto.
        -- intros [(_&H&_)|[(_&_&a'&b'&E&Fa&->)|H]]; [discriminate H| |contradiction].
           assert (D : cut "#" href = Some (a', b')) by (apply cut_Some_iff; auto).
           assert (D' : cut "#" href = Some (a, b)) by (apply cut_Some_iff; auto).
           rewrite D in D'. injection D'; intros -> ->. reflexivity.
      * split; [discriminate|]. intros [(_&H&_)|[(_&H&_)|H]]; [exfalso; apply EP; auto|exfalso; apply EB; auto|contradiction].
    + cbn [mget]. split; [discriminate|]. intros [(_&H&_)|[(_&_&a'&b'&E&Fa&_)|H]]; [exfalso; apply EP; auto| |contradiction].
      assert (D : cut "#" href = Some (a', b')) by (apply cut_Some_iff; auto). congruence.
Qed.
Print Assumptions C34_texts.
(** the label roles of a concept *)
Theorem C34_roles :
  forall labels href role,
    In role (map fst (get_label labels href)) <->
    role = "Default" \/ exists p, In p (paths labels) /\ connects href p /\ api_role (llRole (p_label p)) role.
Proof.
  intros. transitivity (sget role (get_label labels href) <> None).
  - pose proof (sget_None role (get_label labels href)) as S.
    destruct (in_dec string_dec role (map fst (get_label labels href))) as [I|I].
    + split; auto. intros _ C. apply S in C. auto.
    + split; [contradiction|]. intro C. exfalso. apply C. now apply S.
  - unfold get_label. rewrite modifiers_flat, roles_fold. cbn [mget].
    split.
    + intros [H|(p&I&C&R)].
      * left. destruct (String.eqb Default role) eqn:E; [apply String.eqb_eq in E; auto|congruence].
      * right. exists p. rewrite <- connectsbP, <- role_ofP. auto.
    + intros [->|(p&I&C&R)]; [left; discriminate|right]. exists p. rewrite connectsbP, role_ofP. auto.
Qed.
Print Assumptions C34_roles.
Definition ex_link (lang : string) : label_linkbase :=
  LabelLinkbase "l.xml" [] [LabelLink "r" [Loc "s.xsd#A" "locA"]
     [LabelElem "labA" "http://www.xbrl.org/2003/role/label" lang "Assets";
      LabelElem "labA" "http://www.xbrl.org/2003/role/terseLabel" "de" "Aktiva"]
     [LArc (S754_zero false) "http://www.xbrl.org/2003/arcrole/concept-label" "locA" "labA"]].
Example C34_example :
  get_label [ex_link "en-US"; ex_link "es"] "s.xsd#A" =
  [("Default", [("Unlabelled", "s.xsd#A"); ("Truncated", "#A"); ("en - english", "Assets"); ("es - español", "Assets")]);
   ("Terse", [])].
Proof. reflexivity. Qed.

(** C35. Refuted: a label tagged 'en' is not offered ... *)
Theorem C35_english_refuted :
  ~ (forall labels href p role, In p (paths labels) -> connects href p ->
       api_role (llRole (p_label p)) role -> llLang (p_label p) = "en" \/ llLang (p_label p) = "en-US" ->
       exists text, holds (get_label labels href) role "en - english" text).
Proof.
  intro H.
  destruct (H [ex_link "en"] "s.xsd#A" (Path (Loc "s.xsd#A" "locA")
      (LArc (S754_zero false) "http://www.xbrl.org/2003/arcrole/concept-label" "locA" "labA")
      (LabelElem "labA" "http://www.xbrl.org/2003/role/label" "en" "Assets")) "Default") as (text&T).
  - simpl. auto.
  - repeat split.
  - simpl. unfold api_role. simpl. auto.
  - simpl. auto.
  - apply (holds_lk _ _ _ _ (get_label_is_pack _ _)) in T. discriminate T.
Qed.
Print Assumptions C35_english_refuted.
(** ... one tagged 'en-US' is. Missing: the tag 'en'. *)
Theorem C35_english_partial :
  forall labels href p role, In p (paths labels) -> connects href p ->
    api_role (llRole (p_label p)) role -> llLang (p_label p) = "en-US" ->
    exists text, holds (get_label labels href) role "en - english" text.
Proof.
  intros labels href p role I C R L.
  rewrite <- connectsbP in C.
  destruct (find (fun x => connectsb href x && labelsb role "en - english" (p_label x)) (rev (paths labels))) as [x|] eqn:F.
  - exists (llCharData (p_label x)). apply (holds_lk _ _ _ _ (get_label_is_pack _ _)).
    unfold get_label. now rewrite modifiers_flat, lk_fold, F.
  - rewrite find_rev_None in F. specialize (F p I). cbv beta in F. rewrite C in F. simpl in F.
    rewrite (proj2 (labelsbP role "en - english" (p_label p))) in F; [discriminate|].
    split; auto. rewrite L. unfold api_lang. simpl. auto.
Qed.
Print Assumptions C35_english_partial.

(** C36. The languages of a grid, exactly: for each label role, those of the last
    concept that has that role. Missing: the other concepts' languages. *)
Theorem C36_languages_partial :
  forall packs lang, (forall p, In p packs -> is_pack p) ->
    (In lang (snd (roles_and_langs packs)) <->
     exists role p m, last_such (has_role role) packs p /\ In (role, m) p /\ In lang (map fst m)).
Proof.
  intros packs lang W. unfold roles_and_langs. destruct (reduce packs) as [p|] eqn:E.
  - rewrite (destruct_langs _ _ (reduce_is_pack _ _ W E)).
    assert (LS : forall role q, find (fun q => match sget role q with Some _ => true | None => false end) (rev packs) = Some q <->
                   last_such (has_role role) packs q).
    { intros role q. rewrite find_rev_last.
      assert (P : forall y, (match sget role y with Some _ => true | None => false end) = true <-> has_role role y).
      { intro y. unfold has_role. destruct (sget role y) eqn:S.
        - split; auto. intros _. apply sget_In in S. apply (in_map fst) in S. exact S.
        - split; [discriminate|]. apply sget_None in S. contradiction. }
      split; apply last_such_iff; intros y _; cbv beta; rewrite P; tauto. }
    split.
    + intros (role&m&S&L). rewrite (reduce_get packs p role W E) in S.
      destruct (find _ (rev packs)) as [q|] eqn:F; [|discriminate]. apply LS in F.
      exists role, q, m. repeat split; auto. now apply sget_In.
    + intros (role&q&m&F&I&L). exists role, m. split; auto. rewrite (reduce_get packs p role W E).
      rewrite (proj2 (LS role q) F). apply sget_iff; auto. apply W. destruct F as (l1&l2&->&_). apply in_or_app; simpl; auto.
  - destruct packs as [|a [|b t]]; try discriminate. simpl. split; [tauto|].
    intros (role&p&m&(l1&l2&H&_)&_). destruct l1; discriminate.
Qed.
Print Assumptions C36_languages_partial.
(** the label roles of a grid are those of all its concepts *)
Theorem C36_roles :
  forall packs role, (forall p, In p packs -> is_pack p) ->
    (In role (fst (roles_and_langs packs)) <-> exists p, In p packs /\ has_role role p).
Proof.
  intros packs role W. unfold roles_and_langs. destruct (reduce packs) as [p|] eqn:E.
  - unfold destruct_pack. simpl.
    pose proof (sget_None role p) as S. pose proof (reduce_get packs p role W E) as G.
    split.
    + intro I. destruct (find _ (rev packs)) as [q|] eqn:F.
      * exists q. split.
        -- apply find_some in F as [F _]. now apply in_rev.
        -- destruct (sget role q) eqn:Q; [apply sget_In in Q; apply (in_map fst) in Q; exact Q|].
           exfalso. apply S in G. contradiction.
      * exfalso. apply S in G. contradiction.
    + intros (q&I&R). destruct (in_dec string_dec role (map fst p)) as [J|J]; auto.
      exfalso. apply S in J. rewrite J in G. symmetry in G. destruct (find _ (rev packs)) as [q'|] eqn:F.
      * apply find_some in F as [_ F]. rewrite G in F. discriminate.
      * rewrite find_rev_None in F. specialize (F q I). cbv beta in F.
        destruct (sget role q) eqn:Q; [discriminate|]. apply sget_None in Q. contradiction.
  - destruct packs as [|a [|b t]]; try discriminate. simpl. split; [tauto|]. intros (p&[]&_).
Qed.
Print Assumptions C36_roles.
Theorem C36_languages_refuted :
  ~ (forall packs lang, (forall p, In p packs -> is_pack p) ->
       (exists p role m, In p packs /\ In (role, m) p /\ In lang (map fst m)) -> In lang (snd (roles_and_langs packs))).
Proof.
  intro H. specialize (H [get_label [ex_link "es"] "s.xsd#A"; get_label [ex_link "es"] "s.xsd#B"] "es - español").
  assert (C : In "es - español" ["Unlabelled"; "Truncated"]); [|destruct C as [C|[C|[]]]; discriminate C].
  apply H.
  - intros p [<-|[<-|[]]]; apply get_label_is_pack.
  - do 3 eexists. split; [left; reflexivity|]. split; [left; reflexivity|]. simpl. auto.
Qed.
Print Assumptions C36_languages_refuted.
