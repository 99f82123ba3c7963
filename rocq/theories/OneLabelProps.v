(** * OneLabelProps: C159 (a concept has one label) *)
From Coq Require Import Permutation SpecFloat.
From Verif Require Import GoBase GoSpec GoFacts LinkbaseModel LabelModel LabelSpec LabelProofs LabelProps OneLabelSpec.
Local Open Scope string_scope.

Lemma paths_app a b : paths (a ++ b) = (paths a ++ paths b)%list.
Proof. unfold paths. now rewrite flat_map_app. Qed.
Lemma paths_one lb : paths (lb :: nil) = paths [lb].
Proof. reflexivity. Qed.
Lemma labels_as_dec href role lang p : labels_as href role lang p \/ ~ labels_as href role lang p.
Proof.
  unfold labels_as. destruct (connectsb href p) eqn:C.
  - destruct (labelsb role lang (p_label p)) eqn:L.
    + left. split; [now apply connectsbP|]. now apply labelsbP.
    + right. intros (_&H). apply labelsbP in H. congruence.
  - right. intros (H&_). apply connectsbP in H. congruence.
Qed.
Lemma last_or_none {A} (P : A -> Prop) (D : forall x, P x \/ ~ P x) l :
  (exists x, last_such P l x) \/ forall x, In x l -> ~ P x.
Proof.
  induction l as [|x l [(y&l1&l2&E&Py&N)|N]]; [right; intros ? []| |].
  - left. exists y, (x :: l1), l2. rewrite E. auto.
  - destruct (D x) as [Px|Px].
    + left. exists x, [], l. auto.
    + right. intros y [<-|I]; auto.
Qed.
Lemma last_such_fun {A} (P : A -> Prop) l x y : last_such P l x -> last_such P l y -> x = y.
Proof.
  intros (a&b&E&Px&N) (a'&b'&E'&Py&N').
  apply (first_such_unique P (rev l)).
  - exists (rev b), (rev a). rewrite E, rev_app_distr. simpl. rewrite <- app_assoc. repeat split; auto. intros z Hz. apply in_rev in Hz. auto.
  - exists (rev b'), (rev a'). rewrite E', rev_app_distr. simpl. rewrite <- app_assoc. repeat split; auto. intros z Hz. apply in_rev in Hz. auto.
Qed.
Lemma last_such_app {A} (P : A -> Prop) (D : forall x, P x \/ ~ P x) l l' x :
  last_such P (l ++ l') x <-> last_such P l' x \/ ((forall y, In y l' -> ~ P y) /\ last_such P l x).
Proof.
  split.
  - intro L. destruct (last_or_none P D l') as [(y&l1&l2&E&Py&N)|N].
    + left. exists l1, l2. assert (x = y) as ->; [|auto]. apply (last_such_fun P (l ++ l')); auto.
      exists (l ++ l1)%list, l2. rewrite E, <- app_assoc. auto.
    + right. split; auto. destruct L as (a&b&E&Px&M).
      assert (H : exists b0, b = (b0 ++ l')%list /\ l = (a ++ x :: b0)%list).
      { clear D M. revert a E. induction l as [|z l IH]; intros a E.
        - exfalso. apply (N x); auto. cbn in E. rewrite E. apply in_or_app. right. now left.
        - destruct a as [|w a]; cbn in E; injection E as -> E.
          + exists l. split; auto.
          + destruct (IH a E) as (b0&->&->). exists b0. auto. }
      destruct H as (b0&->&->). exists a, b0. repeat split; auto. intros y I. apply M. apply in_or_app. auto.
  - intros [(a&b&->&Px&N)|[N (a&b&->&Px&M)]].
    + exists (l ++ a)%list, b. rewrite <- app_assoc. auto.
    + exists a, (b ++ l')%list. rewrite <- app_assoc. repeat split; auto. intros y I. apply in_app_or in I as [I|I]; auto.
Qed.
(** the last label of several linkbases is that of one of them *)
Lemma last_gives labels href role lang p : last_such (labels_as href role lang) (paths labels) p ->
  exists lb, In lb labels /\ gives lb href role lang (llCharData (p_label p)).
Proof.
  induction labels as [|lb labels IH].
  - intros (a&b&E&_). destruct a; discriminate.
  - change (lb :: labels) with ([lb] ++ labels)%list. rewrite paths_app. intro L.
    apply (last_such_app _ (labels_as_dec href role lang)) in L as [L|[_ L]].
    + destruct (IH L) as (x&I&G). exists x. split; auto. apply in_or_app. auto.
    + exists lb. split; [now left|]. exists p. auto.
Qed.
Lemma gives_last lb labels href role lang text : In lb labels -> gives lb href role lang text ->
  exists p, last_such (labels_as href role lang) (paths labels) p.
Proof.
  intros I (p&(a&b&E&P&_)&_). destruct (last_or_none _ (labels_as_dec href role lang) (paths labels)) as [L|N]; auto.
  exfalso. apply (N p); auto. apply in_split in I as (l1&l2&->). rewrite paths_app.
  change (lb :: l2) with ([lb] ++ l2)%list. rewrite paths_app, E. apply in_or_app. right. apply in_or_app. left. apply in_or_app. right. now left.
Qed.
Lemma paths_perm l l' : Permutation l l' -> forall p, In p (paths l) -> In p (paths l').
Proof.
  intros P p I. unfold paths in *. apply in_flat_map in I as (lb&I&H). apply in_flat_map. exists lb. split; auto.
  eapply Permutation_in; eauto.
Qed.

(** ** C159 *)

(** The label of a concept does not depend on the order in which the label linkbases are visited, and so is the same
    in every place, exactly if the linkbases do not contradict each other about it. *)
Theorem C159_exactly_partial : forall labels href,
  (forall order order', Permutation order labels -> Permutation order' labels ->
     same_pack (get_label order href) (get_label order' href)) <-> agreed labels href.
Proof.
  intros labels href. split.
  - intros H lb lb' role lang text text' I I' G G'.
    assert (One : forall lb text, In lb labels -> gives lb href role lang text ->
      exists order, Permutation order labels /\ holds (get_label order href) role lang text /\
        forall t, holds (get_label order href) role lang t -> t = text).
    { clear. intros lb text I (p&L&E). apply in_split in I as (a&b&->). exists (a ++ b ++ [lb])%list. split.
      { apply Permutation_app_head. symmetry. apply Permutation_cons_append. }
      assert (L' : last_such (labels_as href role lang) (paths (a ++ b ++ [lb])) p).
      { rewrite app_assoc, paths_app. apply (last_such_app _ (labels_as_dec href role lang)). auto. }
      assert (N : lang <> "Unlabelled" /\ lang <> "Truncated").
      { destruct L as (x&y&_&(_&_&HL)&_). unfold api_lang in HL. destruct HL as [HL|[HL|[]]]; injection HL as _ <-; split; discriminate. }
      split; [apply C34_texts; right; right; eauto|]. intros t Ht. apply C34_texts in Ht as [(_&Q&_)|[(_&Q&_)|(p'&L2&->)]].
      - now elim (proj1 N).
      - now elim (proj2 N).
      - assert (p' = p) as -> by (eapply last_such_fun; eauto). auto. }
    destruct (One lb text I G) as (o&P&Ho&_). destruct (One lb' text' I' G') as (o'&P'&_&U').
    apply U'. apply (proj1 (H o o' P P')). exact Ho.
  - intros A order order' P P'.
    assert (Half : forall o o' role lang text, Permutation o labels -> Permutation o' labels ->
      holds (get_label o href) role lang text -> holds (get_label o' href) role lang text).
    { clear - A. intros o o' role lang text P P' Hh. apply C34_texts in Hh. apply C34_texts.
      destruct Hh as [Hh|[Hh|(p&L&->)]]; auto. right. right.
      destruct (last_gives _ _ _ _ _ L) as (lb&I&G).
      destruct (gives_last lb o' href role lang (llCharData (p_label p))) as (p'&L'); auto.
      { eapply Permutation_in; [|exact I]. transitivity labels; [auto|now symmetry]. }
      exists p'. split; auto. destruct (last_gives _ _ _ _ _ L') as (lb'&I'&G').
      apply (A lb lb' role lang); auto; [exact (Permutation_in _ P I)|exact (Permutation_in _ P' I')]. }
    split.
    + intros role lang text. split; apply Half; auto.
    + intro role. unfold has_role. rewrite !C34_roles.
      assert (Q : forall o o', Permutation o labels -> Permutation o' labels -> forall p, In p (paths o) -> In p (paths o')).
      { intros o o' Po Po' p. apply paths_perm. transitivity labels; [auto|now symmetry]. }
      split; (intros [E|(p&I&C)]; [now left|right; exists p; split; [eapply Q; [| |exact I]; auto|auto]]).
Qed.
Print Assumptions C159_exactly_partial.

(** Two linkbases that call the same concept differently *)
Definition calls (text : string) : label_linkbase :=
  LabelLinkbase "l.xml" [] [LabelLink "r" [Loc "s.xsd#A" "locA"]
     [LabelElem "labA" "http://www.xbrl.org/2003/role/label" "en-US" text]
     [LArc (S754_zero false) "http://www.xbrl.org/2003/arcrole/concept-label" "locA" "labA"]].
Theorem C159_refuted : exists labels href order order',
  Permutation order labels /\ Permutation order' labels /\ ~ same_pack (get_label order href) (get_label order' href).
Proof.
  exists [calls "Assets"; calls "Property"], "s.xsd#A", [calls "Assets"; calls "Property"], [calls "Property"; calls "Assets"].
  split; [auto|]. split; [apply perm_swap|]. intros [H _].
  specialize (H "Default" "en - english" "Property").
  assert (X : holds (get_label [calls "Property"; calls "Assets"] "s.xsd#A") "Default" "en - english" "Property").
  { apply H. exists [("Unlabelled", "s.xsd#A"); ("Truncated", "#A"); ("en - english", "Property")]. split; [now left|]. right. right. now left. }
  destruct X as (m&I&J). cbn in I. destruct I as [E|[]]. injection E as <-. cbn in J.
  repeat (destruct J as [J|J]; [discriminate J|]). destruct J.
Qed.
Print Assumptions C159_refuted.

(** Linkbases for two languages do not contradict each other. *)
Example C159_example : agreed [ex_link "en-US"; ex_link "es"] "s.xsd#A".
Proof.
  assert (G : forall lang0 role lang text, gives (ex_link lang0) "s.xsd#A" role lang text -> text = "Assets" \/ (text = "Aktiva" /\ role = "Terse")).
  { intros lang0 role lang text (p&(a&b&E&(_&R&_)&_)&->).
    assert (I : In p (paths [ex_link lang0])) by (rewrite E; apply in_or_app; right; now left).
    cbn in I. destruct I as [<-|[<-|[]]]; [now left|]. right. split; [reflexivity|]. cbn in R.
    destruct R as [R|[R|[R|[]]]]; try discriminate R. now injection R as <-. }
  assert (G' : forall lang0 role lang text, gives (ex_link lang0) "s.xsd#A" role lang text -> role = "Terse" -> text = "Aktiva").
  { intros lang0 role lang text (p&(a&b&E&(_&R&_)&_)&->) ->.
    assert (I : In p (paths [ex_link lang0])) by (rewrite E; apply in_or_app; right; now left).
    cbn in I. destruct I as [<-|[<-|[]]]; [|reflexivity]. cbn in R. destruct R as [R|[R|[R|[]]]]; discriminate R. }
  intros lb lb' role lang text text' I I' H H'.
  assert (E : exists l, lb = ex_link l) by (destruct I as [<-|[<-|[]]]; eauto).
  assert (E' : exists l, lb' = ex_link l) by (destruct I' as [<-|[<-|[]]]; eauto).
  destruct E as [l ->]. destruct E' as [l' ->].
  destruct (G _ _ _ _ H) as [->|[-> R]]; destruct (G _ _ _ _ H') as [->|[-> R']]; auto.
  - apply (G' _ _ _ _ H R').
  - symmetry. apply (G' _ _ _ _ H' R).
Qed.
