(** * InstanceProps: C37-C43, C78, C81, C82 (instances, footnotes, units) *)
From Coq Require Import SpecFloat.
From Verif Require Import GoBase GoSpec GoFacts AttrModel AttrSpec SchemaModel SchemaSpec SchemaProofs
  LinkbaseModel LinkbaseSpec LinkbaseProofs SchemaProps InstanceModel InstanceSpec InstanceProofs.
Local Open Scope string_scope.

(** a small folder used in the examples *)
Definition ex_decl (id name : string) : elem :=
  ex_elem [pa "id" id; pa "name" name; pa "type" "xbrli:stringItemType"].
Definition ex_taxonomy : schema_file :=
  SchemaFile [pa "targetNamespace" "urn:t"; XAttr (XName "xmlns" "xbrli") "http://www.xbrl.org/2003/instance"]
    [] [] [] [ex_decl "t_Dim" "Dim"; ex_decl "t_A" "A"; ex_decl "t_B" "B"; ex_decl "t_C" "C"].
Definition ex_env : qenv :=
  QEnv [("urn:t", "t.xsd")] [("t.xsd", ex_taxonomy)] (fun _ => false) (fun _ => Err "offline").
Definition ex_scope : list xattr :=
  [XAttr (XName "xmlns" "t") "urn:t"; XAttr (XName "xmlns" "iso4217") "http://www.xbrl.org/2003/iso4217";
   XAttr (XName "xmlns" "xbrli") "http://www.xbrl.org/2003/instance"].
Lemma ex_env_ok : qenv_ok ex_env.
Proof. split; repeat constructor; simpl; tauto. Qed.

(** C37. The facts of an instance *)
Theorem C37_facts_loaded :
  forall q tokens f file i, qenv_ok q -> hydrate_instance q tokens (Some f) file = Ok i ->
    iFileName i = file /\
    exists fs, image_of (is_fact q) (if_facts f) fs /\
      stably_sorted (fun a b => String.ltb (fID a) (fID b)) fs (iFacts i).
Proof.
  intros q tokens f file i Hq. unfold hydrate_instance. destruct (nonempty file); [|discriminate]. simpl.
  destruct (hydrate_contexts q tokens f) as [cs|m|]; simpl; try discriminate.
  intro H; injection H; intros <-. simpl. split; auto.
  exists (collect (hydrate_fact q) (if_facts f)). split.
  - apply collect_image. intros; now apply hydrate_fact_iff.
  - apply isort_stably_sorted. apply (swo_by _ fID), swo_string.
Qed.
Print Assumptions C37_facts_loaded.

(** loading an instance fails exactly without a file name or without a file *)
Theorem C37_fails_exactly_without_name_or_file :
  forall q tokens f file,
    (exists m, hydrate_instance q tokens f file = Err m) <-> file = "" \/ f = None.
Proof.
  intros q tokens f file. unfold hydrate_instance. destruct (nonempty file) eqn:N; simpl.
  - apply nonempty_iff in N. destruct f as [f|].
    + unfold hydrate_contexts.
      assert (NE : forall m, collectM (hydrate_context q tokens (if_attrs f)) (if_context f) <> Err m).
      { induction (if_context f) as [|c t IH]; intro m; simpl; [discriminate|].
        pose proof (hydrate_context_no_err q tokens (if_attrs f) c) as NC.
        destruct (hydrate_context q tokens (if_attrs f) c) as [o|e|]; simpl; try discriminate.
        - destruct (collectM _ t) as [x|e|]; simpl; try discriminate. intros _. now apply (IH e).
        - intros _. now apply (NC e). }
      split; [|intros [?|?]; [contradiction|discriminate]].
      intros (m&H). destruct (collectM _ _) as [x|e|]; simpl in H; try discriminate. now contradiction (NE e).
    + split; eauto.
  - apply nonempty_false in N. split; eauto.
Qed.
Print Assumptions C37_fails_exactly_without_name_or_file.

Definition ex_fact (attrs : list xattr) : elem := Elem (XName "urn:t" "A") attrs "42".
Definition ex_instance : instance_file :=
  InstanceFile ex_scope []
    [ContextElem (XName "http://www.xbrl.org/2003/instance" "context") [pa "id" "c1"]
       [EntityElem [Elem (XName "http://www.xbrl.org/2003/instance" "identifier") [pa "scheme" "urn:cik"] "0000"]
          [SegElem [Elem (XName "http://xbrl.org/2006/xbrldi" "explicitMember") [pa "dimension" "t:Dim"] "t:B";
                    Elem (XName "http://xbrl.org/2006/xbrldi" "explicitMember") [pa "dimension" "t:Nope"] "t:B"]
                   [Elem (XName "http://xbrl.org/2006/xbrldi" "typedMember") [pa "dimension" "t:Dim"] "<t:A>v</t:A>"]]]
       [PeriodElem [] [Elem (XName "" "startDate") [] "2020-01-01"] [Elem (XName "" "endDate") [] "2020-12-31"]] [];
     ContextElem (XName "http://www.xbrl.org/2003/instance" "context") [pa "id" "c0"]
       [EntityElem [Elem (XName "http://www.xbrl.org/2003/instance" "identifier") [pa "scheme" "urn:cik"] "0000"] []]
       [PeriodElem [Elem (XName "" "instant") [] "2020-12-31"] [] []] [];
     ContextElem (XName "http://www.xbrl.org/2003/instance" "context") [pa "id" "c2"]
       [EntityElem [] []] [] []]
    [UnitElem (XName "http://www.xbrl.org/2003/instance" "unit") [pa "id" "u"] [Elem (XName "" "measure") [] "iso4217:USD"] [];
     UnitElem (XName "http://www.xbrl.org/2003/instance" "unit") [pa "id" "ps"] []
       [DivideElem [[Elem (XName "" "measure") [] "iso4217:USD"]] [[Elem (XName "" "measure") [] "xbrli:shares"]]];
     UnitElem (XName "http://www.xbrl.org/2003/instance" "unit") [pa "id" "bad"] [] []]
    []
    [ex_fact [pa "id" "f2"; pa "contextRef" "c1"; pa "unitRef" "u"; pa "decimals" "-3"];
     ex_fact [pa "id" "f1"; pa "contextRef" "c1"; pa "decimals" "INF"; pa "nil" "true"];
     ex_fact [pa "id" "f0"];
     Elem (XName "urn:t" "Nope") [pa "id" "f3"; pa "contextRef" "c1"] "1"].
Definition ex_tokens (s : string) : list token :=
  if String.eqb s "" then [] else [TokStart (XName "t" "A"); TokChar " v "; TokEnd (XName "t" "A")].
Example C37_example :
  (do i <- hydrate_instance ex_env ex_tokens (Some ex_instance) "i.xml";
   Ok (iFacts i, map ctxID (iContexts i), map unID (iUnits i))) =
  Ok ([Fact "t.xsd#t_A" "f1" "c1" "" Exact true "42"; Fact "t.xsd#t_A" "f2" "c1" "u" (-3) false "42"],
      ["c0"; "c1"], ["ps"; "u"]).
Proof. vm_compute. reflexivity. Qed.

(** C38. Refuted: decimals="-2147483648" is indistinguishable from INF, and
    decimals="-2147483647" from no decimals. *)
Theorem C38_confusion_refuted :
  ~ (forall attrs attrs' p p', decimals_attr attrs p -> decimals_attr attrs' p' ->
       hydrate_precision attrs = hydrate_precision attrs' -> p = p') /\
  hydrate_precision [pa "decimals" "-2147483648"] = hydrate_precision [pa "decimals" "INF"] /\
  hydrate_precision [pa "decimals" "-2147483647"] = hydrate_precision [].
Proof.
  split; [|split; reflexivity]. intro H.
  specialize (H [pa "decimals" "-2147483648"] [pa "decimals" "INF"] (PDecimals (-2147483648)) PExact).
  discriminate H.
  - apply (dec_num _ "-2147483648").
    + apply attr_val_iff. eexists; split; reflexivity.
    + apply atoi_iff. reflexivity.
  - apply dec_inf. apply attr_val_iff. eexists; split; reflexivity.
  - reflexivity.
Qed.
Print Assumptions C38_confusion_refuted.

(** What holds, for every attribute list: exactly one kind applies, it is encoded
    as documented, and kinds are told apart except for those two decimals. *)
Theorem C38_decimals_partial :
  (forall attrs z, hydrate_precision attrs = z <-> exists p, decimals_attr attrs p /\ z = encoded p) /\
  (forall p p', p <> PDecimals (-2147483648) -> p <> PDecimals (-2147483647) ->
     p' <> PDecimals (-2147483648) -> p' <> PDecimals (-2147483647) -> encoded p = encoded p' -> p = p').
Proof.
  split; [exact hydrate_precision_iff|].
  intros [|n|] [|n'|] N1 N2 N3 N4 E; simpl in E; subst; auto; try congruence; try discriminate.
Qed.
Print Assumptions C38_decimals_partial.
Example C38_example :
  decimals_attr [pa "decimals" "-6"] (PDecimals (-6)) /\ decimals_attr [pa "decimals" "x"] PNone.
Proof.
  split.
  - apply (dec_num _ "-6"); [apply attr_val_iff; eexists; split; reflexivity|apply atoi_iff; reflexivity].
  - apply (dec_bad _ "x"); [apply attr_val_iff; eexists; split; reflexivity|discriminate|].
    intros n H. apply atoi_iff in H. discriminate.
Qed.

(** C39. Whenever contexts are loaded, they are exactly the well-formed ones. *)
Theorem C39_contexts_partial :
  forall q tokens f file i, qenv_ok q -> hydrate_instance q tokens (Some f) file = Ok i ->
    exists cs, image_of (is_context q (if_attrs f) (content_of q tokens (if_attrs f))) (if_context f) cs /\
      stably_sorted (fun a b => String.ltb (ctxID a) (ctxID b)) cs (iContexts i).
Proof.
  intros q tokens f file i Hq. unfold hydrate_instance. destruct (nonempty file); [|discriminate]. simpl.
  unfold hydrate_contexts.
  destruct (collectM (hydrate_context q tokens (if_attrs f)) (if_context f)) as [cs|m|] eqn:E; simpl; try discriminate.
  intro H; injection H; intros <-. simpl. exists cs. split.
  - eapply collectM_image; [| |exact E].
    + intros x _ Hx y. now apply hydrate_context_iff.
    + intros. apply hydrate_context_no_err.
  - apply isort_stably_sorted. apply (swo_by _ ctxID), swo_string.
Qed.
Print Assumptions C39_contexts_partial.

(** Refuted: a context without an entity is not dropped but crashes the load. *)
Theorem C39_missing_entity_refuted :
  ~ (forall q tokens f file, qenv_ok q -> hydrate_instance q tokens (Some f) file <> Panic).
Proof.
  intro H. apply (H ex_env ex_tokens
    (InstanceFile [] [] [ContextElem (XName "http://www.xbrl.org/2003/instance" "context") [pa "id" "c"] [] [] []] [] [] []) "i.xml"
    ex_env_ok). reflexivity.
Qed.
Print Assumptions C39_missing_entity_refuted.

(** It does not crash when every context has an entity and no typed member's
    content does (C81). *)
Theorem C39_no_crash_partial :
  forall q tokens f file, file <> "" ->
    (forall c, In c (if_context f) -> cx_entity c <> []) ->
    (forall c s e href, In c (if_context f) -> In s (cx_scenario c) \/ (exists en, In en (cx_entity c) /\ In s (en_segment en)) ->
       In e (sg_typed s) -> hydrate_typed_members q tokens (if_attrs f) href (etext e) <> Panic) ->
    exists i, hydrate_instance q tokens (Some f) file = Ok i.
Proof.
  intros q tokens f file Hf HE HT. unfold hydrate_instance. apply nonempty_iff in Hf. rewrite Hf. simpl.
  assert (D : forall b segs, (forall s e href, In s segs -> In e (sg_typed s) -> hydrate_typed_members q tokens (if_attrs f) href (etext e) <> Panic) ->
    exists d, hydrate_dim_context b q tokens (if_attrs f) segs = Ok d).
  { intros b [|s r] HS; simpl; eauto.
    destruct (collectM_total (hydrate_typed_member b q tokens (if_attrs f)) (sg_typed s)) as [l ->]; simpl; eauto.
    intros e He. unfold hydrate_typed_member.
    match goal with |- exists o, match ?x with _ => _ end = _ => destruct x as [[[v d] c]|] end; eauto.
    pose proof (HS s e d (or_introl eq_refl) He). pose proof (hydrate_typed_members_no_err q tokens (if_attrs f) d (etext e)) as N.
    destruct (hydrate_typed_members q tokens (if_attrs f) d (etext e)) as [x|m|]; simpl; eauto; try contradiction.
    now contradiction (N m). }
  destruct (collectM_total (hydrate_context q tokens (if_attrs f)) (if_context f)) as [l Hl].
  - intros c Hc. unfold hydrate_context. destruct (negb _); eauto. destruct (req _ _); eauto.
    specialize (HE c Hc). specialize (HT c). destruct (cx_entity c) as [|en ens]; [contradiction|].
    destruct (en_identifier en); eauto. destruct (String.eqb _ _); eauto. destruct (find_attr _ _); eauto.
    destruct (D false (en_segment en)) as [d1 ->]; [intros s' e' href Hs He; apply (HT s' e' href Hc); simpl; eauto|].
    destruct (D true (cx_scenario c)) as [d2 ->]; [intros s' e' href Hs He; apply (HT s' e' href Hc); simpl; eauto|]. simpl.
    match goal with |- context [let (_, _) := ?X in _] => destruct X as [? [? ?]] end; eauto.
  - unfold hydrate_contexts. rewrite Hl. simpl. eauto.
Qed.
Print Assumptions C39_no_crash_partial.
Example C39_example :
  (do i <- hydrate_instance ex_env ex_tokens (Some ex_instance) "i.xml"; Ok (iContexts i)) =
    Ok
      [Context "c0" "urn:cik" "0000" (DimContext [] []) "2020-12-31" "" "" (DimContext [] []);
       Context "c1" "urn:cik" "0000"
         (DimContext [ExplicitMember "t.xsd#t_Dim" "t:Dim" "t.xsd#t_B" "t:B"]
            [TypedMember "t.xsd#t_Dim" "t:Dim" "" [("t.xsd#t_A", "v")] [TArc (f64_of_nat 1) "t.xsd#t_Dim" "t.xsd#t_A"]])
         "" "2020-01-01" "2020-12-31" (DimContext [] [])].
Proof. vm_compute. reflexivity. Qed.

(** C40. Units *)
Theorem C40_units_loaded :
  forall q tokens f file i, hydrate_instance q tokens (Some f) file = Ok i ->
    exists us, image_of (is_unit (if_attrs f)) (if_unit f) us /\
      stably_sorted (fun a b => String.ltb (unID a) (unID b)) us (iUnits i).
Proof.
  intros q tokens f file i. unfold hydrate_instance. destruct (nonempty file); [|discriminate]. simpl.
  destruct (hydrate_contexts q tokens f) as [cs|m|]; simpl; try discriminate.
  intro H; injection H; intros <-. simpl.
  exists (collect (hydrate_unit (if_attrs f)) (if_unit f)). split.
  - apply collect_image. intros; apply hydrate_unit_iff.
  - apply isort_stably_sorted. apply (swo_by _ unID), swo_string.
Qed.
Print Assumptions C40_units_loaded.
Example C40_example :
  (do i <- hydrate_instance ex_env ex_tokens (Some ex_instance) "i.xml"; Ok (iUnits i)) =
    Ok
      [Unit "ps" no_measure (Measure (XName "http://www.xbrl.org/2003/iso4217" "USD") "iso4217:USD")
                            (Measure (XName "http://www.xbrl.org/2003/instance" "shares") "xbrli:shares");
       Unit "u" (Measure (XName "http://www.xbrl.org/2003/iso4217" "USD") "iso4217:USD") no_measure no_measure].
Proof. vm_compute. reflexivity. Qed.

(** C41. Footnotes. Loading the footnote links is exact ... *)
Theorem C41_links_loaded :
  forall q tokens f file i, hydrate_instance q tokens (Some f) file = Ok i ->
    exists ls, image_of is_footnote_link (if_fnlink f) ls /\
      stably_sorted (fun a b => String.ltb (fkTitle a) (fkTitle b)) ls (iFootnoteLinks i).
Proof.
  intros q tokens f file i. unfold hydrate_instance. destruct (nonempty file); [|discriminate]. simpl.
  destruct (hydrate_contexts q tokens f) as [cs|m|]; simpl; try discriminate.
  intro H; injection H; intros <-. simpl.
  exists (collect hydrate_footnote_link (if_fnlink f)). split.
  - apply collect_image. apply hydrate_footnote_link_iff.
  - apply isort_stably_sorted. apply (swo_by _ fkTitle), swo_string.
Qed.
Print Assumptions C41_links_loaded.

(** a tree builder that meets the assumption on the external package *)
Definition ex_tree (arcs : list arc) (role : string) : rarc :=
  let mine := filter (fun a => String.eqb (arArcrole a) role) arcs in
  RArc "" (S754_zero false)
    (map (fun s => RArc s (S754_zero false)
            (map (fun a => RArc (arTo a) (arOrder a) []) (filter (fun a => String.eqb (arFrom a) s) mine)))
         (uniq String.eqb (map arFrom
            (filter (fun a => negb (existsb (fun b => String.eqb (arTo b) (arFrom a)) mine)) mine)))).
Lemma ex_tree_faithful : faithful_tree ex_tree.
Proof.
  intros arcs role. unfold ex_tree. cbn [ra_children].
  set (mine := filter (fun a => String.eqb (arArcrole a) role) arcs).
  set (tops := filter (fun a => negb (existsb (fun b => String.eqb (arTo b) (arFrom a)) mine)) mine).
  assert (M : forall a, In a mine <-> In a arcs /\ arArcrole a = role).
  { intro a. unfold mine. now rewrite filter_In, String.eqb_eq. }
  assert (T : forall a, In a tops <-> In a mine /\ forall b, In b mine -> arTo b <> arFrom a).
  { intro a. unfold tops. rewrite filter_In, negb_true_iff.
    assert (E : existsb (fun b => String.eqb (arTo b) (arFrom a)) mine = false <->
                forall b, In b mine -> arTo b <> arFrom a).
    { rewrite <- not_true_iff_false, existsb_exists. split.
      - intros H b Hb Eb. apply H. exists b. split; auto. now apply String.eqb_eq.
      - intros H (b&Hb&Eb). apply String.eqb_eq in Eb. now apply (H b). }
    now rewrite E. }
  repeat split.
  - rewrite map_map. cbn [ra_locator]. rewrite map_id. apply (uniq_NoDup _ seqP).
  - intros c Hc. apply in_map_iff in Hc as (s&<-&Hs). rewrite (uniq_In _ seqP) in Hs.
    apply in_map_iff in Hs as (a&<-&Ha). apply T in Ha as [Ha _]. cbn [ra_children].
    eexists. apply in_map_iff. exists a. split; eauto. apply filter_In. split; auto. apply seqb_refl.
  - intros [(a&Ha&R&F&E) N]. 
    exists (RArc s (S754_zero false) (map (fun a => RArc (arTo a) (arOrder a) []) (filter (fun a => String.eqb (arFrom a) s) mine))).
    exists (RArc (arTo a) (arOrder a) []). repeat split; auto.
    + apply in_map_iff. exists s. split; auto. apply (uniq_In _ seqP), in_map_iff. exists a. split; auto.
      apply T. split; [now apply M|]. intros b Hb. apply M in Hb as [? ?]. rewrite F. auto.
    + cbn [ra_children]. apply in_map_iff. exists a. split; auto. apply filter_In. split; [now apply M|].
      now apply String.eqb_eq.
  - destruct H as (c&g&Hc&Hg&Lc&Lg). apply in_map_iff in Hc as (s'&<-&Hs). cbn in Hg, Lc. subst s'.
    apply in_map_iff in Hg as (a&<-&Ha). apply filter_In in Ha as [Ha Fa]. apply String.eqb_eq in Fa.
    apply M in Ha as [Ha Ra]. exists a. auto.
  - destruct H as (c&g&Hc&Hg&Lc&Lg). apply in_map_iff in Hc as (s'&<-&Hs). cbn in Hg, Lc. subst s'.
    rewrite (uniq_In _ seqP) in Hs. apply in_map_iff in Hs as (a&<-&Ha). apply T in Ha as [_ N].
    intros b Hb Rb. apply N. apply M. auto.
Qed.

(** ... but not every footnote of a fact is found. Refuted: (1) a footnote whose
    id differs from its xlink:label is lost; (2) even if ids and labels agree, a
    fact annotated in two links only gets the footnotes of the first; (3) one link
    without arcs hides the links after it. *)
Definition ex_fn (id label : string) := Footnote id "text" "en" label.
Definition ex_lk (arcs : list (string * string)) (locs : list loc) (fns : list footnote) : footnote_link :=
  FootnoteLink "" fns locs (map (fun a => FnArc (fst a) (snd a) FactFootnoteArcrole) arcs).
Definition ex_ins (ls : list footnote_link) : instance := Instance "i.xml" [] [] ls [].
Definition ex_annotated : fact := Fact "t.xsd#t_A" "f1" "c" "" 0 false "".
Definition ids_are_labels (insts : list instance) : Prop :=
  forall i l f, In i insts -> In l (iFootnoteLinks i) -> In f (fkFootnotes l) -> fnID f = fnLabel f.
Lemma ex_linked ls l : In l ls ->
  forall a f, In a (fkArcs l) -> label_refers (ex_ins ls) (faFrom a) "f1" -> In f (fkFootnotes l) -> fnLabel f = faTo a ->
  linked [ex_ins ls] (fID ex_annotated) f.
Proof. intros Hl a f Ha Lf Hf E. exists (ex_ins ls), l, a. simpl. auto 10. Qed.
Lemma ex_wf ls : (forall l, In l ls -> exists arcs locs fns, l = ex_lk arcs locs fns) -> wf_arcs [ex_ins ls].
Proof.
  intros H i l a [<-|[]] Hl Ha. simpl in Hl. apply H in Hl as (arcs&locs&fns&->). simpl in Ha.
  apply in_map_iff in Ha as (x&<-&_). reflexivity.
Qed.
Theorem C41_id_and_label_refuted :
  ~ (forall tree insts fa f, faithful_tree tree -> wf_arcs insts ->
       linked insts (fID fa) f -> In f (get_footnotes tree insts insts (Some fa))).
Proof.
  intro H.
  set (l := ex_lk [("lf1", "fn")] [Loc "#f1" "lf1"] [ex_fn "fn-id" "fn"]).
  apply (H ex_tree [ex_ins [l]] ex_annotated (ex_fn "fn-id" "fn") ex_tree_faithful).
  - apply ex_wf. intros x [<-|[]]. unfold l. eauto.
  - eapply (ex_linked [l] l); [simpl; auto|left; reflexivity|apply label_refers_iff; reflexivity|left; reflexivity|reflexivity].
Qed.
Print Assumptions C41_id_and_label_refuted.
Theorem C41_two_links_refuted :
  ~ (forall tree insts fa f, faithful_tree tree -> wf_arcs insts -> ids_are_labels insts ->
       linked insts (fID fa) f -> In f (get_footnotes tree insts insts (Some fa))).
Proof.
  intro H.
  set (l1 := ex_lk [("lf1", "fn1")] [Loc "#f1" "lf1"] [ex_fn "fn1" "fn1"]).
  set (l2 := ex_lk [("lf1", "fn2")] [Loc "#f1" "lf1"] [ex_fn "fn2" "fn2"]).
  assert (G : In (ex_fn "fn2" "fn2") (get_footnotes ex_tree [ex_ins [l1; l2]] [ex_ins [l1; l2]] (Some ex_annotated))).
  { apply H; [exact ex_tree_faithful| | |].
    - apply ex_wf. intros x [<-|[<-|[]]]; [unfold l1|unfold l2]; eauto.
    - intros i l f [<-|[]]. simpl. intros [<-|[<-|[]]]; simpl; intros [<-|[]]; reflexivity.
    - eapply (ex_linked [l1; l2] l2); [simpl; auto|left; reflexivity|apply label_refers_iff; reflexivity|left; reflexivity|reflexivity]. }
  simpl in G. destruct G as [G|[]]. discriminate.
Qed.
Print Assumptions C41_two_links_refuted.
Theorem C41_empty_link_refuted :
  ~ (forall tree insts fa f, faithful_tree tree -> wf_arcs insts -> ids_are_labels insts ->
       (forall i l l' a a', In i insts -> In l (iFootnoteLinks i) -> In l' (iFootnoteLinks i) ->
          In a (fkArcs l) -> In a' (fkArcs l') -> l = l') ->
       linked insts (fID fa) f -> In f (get_footnotes tree insts insts (Some fa))).
Proof.
  intro H.
  set (l1 := ex_lk [] [] []).
  set (l2 := ex_lk [("lf1", "fn2")] [Loc "#f1" "lf1"] [ex_fn "fn2" "fn2"]).
  assert (G : In (ex_fn "fn2" "fn2") (get_footnotes ex_tree [ex_ins [l1; l2]] [ex_ins [l1; l2]] (Some ex_annotated))).
  { apply H; [exact ex_tree_faithful| | | |].
    - apply ex_wf. intros x [<-|[<-|[]]]; [unfold l1|unfold l2]; eauto.
    - intros i l f [<-|[]]. simpl. intros [<-|[<-|[]]]; simpl; [tauto|]. intros [<-|[]]; reflexivity.
    - intros i l l' a a' [<-|[]]. simpl. intros [<-|[<-|[]]] [<-|[<-|[]]]; simpl; tauto.
    - eapply (ex_linked [l1; l2] l2); [simpl; auto|left; reflexivity|apply label_refers_iff; reflexivity|left; reflexivity|reflexivity]. }
  simpl in G. exact G.
Qed.
Print Assumptions C41_empty_link_refuted.

(** What holds, for every tree builder meeting the assumption and all iteration
    orders [o1], [o2] of the instance map: nothing wrong is returned, ... *)
Theorem C41_sound_partial :
  forall tree o1 o2 fa f, faithful_tree tree -> wf_arcs o1 ->
    In f (get_footnotes tree o1 o2 (Some fa)) ->
    exists i l, In i o1 /\ In l (iFootnoteLinks i) /\ linked_by_id o2 i l (fID fa) f.
Proof. intros. eapply get_footnotes_sound; eauto. Qed.
Print Assumptions C41_sound_partial.
(** ... and all are found if one link only annotates the fact, by one locator, and
    every link has an arc. Missing: several links or locators, links without arcs,
    footnotes whose id is not their label. *)
Theorem C41_complete_partial :
  forall tree o1 o2 fa i l s, faithful_tree tree -> wf_arcs o1 ->
    (forall i l, In i o1 -> In l (iFootnoteLinks i) ->
       exists a, In a (fkArcs l) /\ forall b, In b (fkArcs l) -> faTo b <> faFrom a) ->
    (forall i' l' s', source_of o1 (fID fa) i' l' s' -> i' = i /\ l' = l /\ s' = s) ->
    In i o1 -> In l (iFootnoteLinks i) ->
    forall f, linked_by_id o2 i l (fID fa) f -> In f (get_footnotes tree o1 o2 (Some fa)).
Proof. intros. eapply get_footnotes_complete; eauto. Qed.
Print Assumptions C41_complete_partial.
Example C41_example :
  let l := ex_lk [("lf1", "fn1"); ("lf1", "fn2"); ("lf9", "fn1")] [Loc "#f1" "lf1"; Loc "x#f9" "lf9"]
             [ex_fn "fn1" "fn1"; ex_fn "fn2" "fn2"] in
  let o := [ex_ins [l]] in
  get_footnotes ex_tree o o (Some ex_annotated) = [ex_fn "fn1" "fn1"; ex_fn "fn2" "fn2"] /\
  wf_arcs o /\
  (forall i l, In i o -> In l (iFootnoteLinks i) ->
       exists a, In a (fkArcs l) /\ forall b, In b (fkArcs l) -> faTo b <> faFrom a) /\
  (forall i' l' s', source_of o (fID ex_annotated) i' l' s' -> i' = ex_ins [l] /\ l' = l /\ s' = "lf1").
Proof.
  cbv zeta. repeat split.
  - apply ex_wf. intros x [<-|[]]. eauto.
  - intros i l [<-|[]]. simpl. intros [<-|[]]. simpl. eexists. split; [left; reflexivity|].
    simpl. intros b [<-|[<-|[<-|[]]]]; discriminate.
  - destruct H as ([<-|[]]&_). reflexivity.
  - destruct H as ([<-|[]]&[<-|[]]&_). reflexivity.
  - destruct H as ([<-|[]]&[<-|[]]&L&(a&Ha&<-)&_). simpl in Ha. apply label_refers_iff in L.
    destruct Ha as [<-|[<-|[<-|[]]]]; auto. discriminate L.
Qed.

(** C42. Unit lookup, for every iteration order of the instance map. [us] are the
    units of the first list of the registry. *)
Definition unit_with (insts : list instance) (ref : string) (u : unit_) : Prop :=
  first_such (fun u => unID u = ref) (flat_map iUnits insts) u.
Definition is_divide (u : unit_) : Prop :=
  msText (unMeasure u) = "" /\ msText (unNum u) <> "" /\ msText (unDen u) <> "".
Lemma unit_with_iff insts ref u :
  find (fun u => String.eqb (unID u) ref) (flat_map iUnits insts) = Some u <-> unit_with insts ref u.
Proof. unfold unit_with. rewrite find_first_such. split; apply first_such_iff; intros y _; now rewrite String.eqb_eq. Qed.
Theorem C42_numerator :
  forall us rest insts ref m,
    fst (find_measurement (Ok (map_measurements (us :: rest))) insts ref) = Some m <->
    exists u, unit_with insts ref u /\
      ((msText (unMeasure u) <> "" /\ registered us (nspace (msName (unMeasure u))) (nlocal (msName (unMeasure u))) m) \/
       (is_divide u /\ registered us (nspace (msName (unNum u))) (nlocal (msName (unNum u))) m)).
Proof.
  intros us rest insts ref m. unfold find_measurement.
  destruct (find _ _) as [u|] eqn:F.
  - apply unit_with_iff in F.
    assert (U : forall v, unit_with insts ref v -> v = u) by (intros; eapply first_such_unique; eauto).
    destruct (String.eqb_spec (msText (unMeasure u)) "") as [Z|Z].
    + destruct (String.eqb_spec (msText (unNum u)) "") as [Zn|Zn]; cbn [orb fst snd];
      [|destruct (String.eqb_spec (msText (unDen u)) "") as [Zd|Zd]; cbn [orb fst]].
      * split; [discriminate|]. intros (v&Hv&[[? _]|[(?&?&?) _]]); rewrite (U v Hv) in *; contradiction.
      * split; [discriminate|]. intros (v&Hv&[[? _]|[(?&?&?) _]]); rewrite (U v Hv) in *; contradiction.
      * rewrite query_utr_iff. split.
        -- intro H. exists u. split; auto. right. repeat split; auto.
        -- intros (v&Hv&[[? _]|[_ H]]); rewrite (U v Hv) in *; [contradiction|auto].
    + cbn [fst]. rewrite query_utr_iff. split.
      * intro H. exists u. auto.
      * intros (v&Hv&[[_ H]|[(?&_) _]]); rewrite (U v Hv) in *; [auto|contradiction].
  - simpl. split; [discriminate|]. intros (u&Hu&_). apply unit_with_iff in Hu. congruence.
Qed.
Print Assumptions C42_numerator.

(** Refuted: the denominator is looked up under the numerator's local name. *)
Definition ex_utr (ns id : string) : utr_unit :=
  UtrUnit [Elem (XName "" "unitId") [] id] [Elem (XName "" "unitName") [] id] [Elem (XName "" "nsUnit") [] ns]
    [] [] [] [] [] [] [] [] [] [] [] [] [] [].
Definition ex_measurement (ns id : string) : measurement :=
  Measurement id id ns "" "" "" "" "" "" "" "" "" "" "" "" "" "".
Definition ex_units : list utr_unit :=
  [ex_utr "http://www.xbrl.org/2003/iso4217" "USD"; ex_utr "http://www.xbrl.org/2003/instance" "shares"].
Definition ex_per_share : unit_ :=
  Unit "ps" no_measure (Measure (XName "http://www.xbrl.org/2003/iso4217" "USD") "iso4217:USD")
                       (Measure (XName "http://www.xbrl.org/2003/instance" "shares") "xbrli:shares").
Theorem C42_denominator_refuted :
  ~ (forall us rest insts ref u m, unit_with insts ref u -> is_divide u ->
       registered us (nspace (msName (unDen u))) (nlocal (msName (unDen u))) m ->
       snd (find_measurement (Ok (map_measurements (us :: rest))) insts ref) = Some m).
Proof.
  intro H. specialize (H ex_units [] [Instance "i.xml" [] [ex_per_share] [] []] "ps" ex_per_share
                         (ex_measurement "http://www.xbrl.org/2003/instance" "shares")).
  discriminate H.
  - apply unit_with_iff. reflexivity.
  - repeat split; discriminate.
  - apply (proj1 (query_utr_iff ex_units [] _ _ _)). reflexivity.
Qed.
Print Assumptions C42_denominator_refuted.
(** What the denominator is: exact, and right when both local names agree or there
    is no division. Missing: denominators with another local name. *)
Theorem C42_denominator_partial :
  (forall us rest insts ref m,
    snd (find_measurement (Ok (map_measurements (us :: rest))) insts ref) = Some m <->
    exists u, unit_with insts ref u /\ is_divide u /\
      registered us (nspace (msName (unDen u))) (nlocal (msName (unNum u))) m) /\
  (forall utr insts ref u, unit_with insts ref u -> ~ is_divide u -> snd (find_measurement utr insts ref) = None) /\
  (forall utr insts ref m, utr = Err m -> find_measurement utr insts ref = (None, None)).
Proof.
  repeat split.
  - unfold find_measurement. destruct (find _ _) as [u|] eqn:F; [|discriminate].
    apply unit_with_iff in F.
    destruct (String.eqb_spec (msText (unMeasure u)) "") as [Z|Z]; [|discriminate].
    destruct (String.eqb_spec (msText (unNum u)) "") as [Zn|Zn]; cbn [orb fst snd]; [discriminate|].
    destruct (String.eqb_spec (msText (unDen u)) "") as [Zd|Zd]; cbn [snd]; [discriminate|].
    intro H. apply query_utr_iff in H. exists u. repeat split; auto.
  - intros (u&Hu&(D1&D2&D3)&H). apply unit_with_iff in Hu. unfold find_measurement. rewrite Hu, D1.
    cbn [String.eqb]. rewrite !seqb_false by auto. cbn [orb snd]. now apply query_utr_iff.
  - intros utr insts ref u Hu D. apply unit_with_iff in Hu. unfold find_measurement. rewrite Hu.
    destruct (String.eqb_spec (msText (unMeasure u)) "") as [Z|Z]; [|reflexivity].
    destruct (String.eqb_spec (msText (unNum u)) "") as [Zn|Zn]; cbn [orb fst snd]; [reflexivity|].
    destruct (String.eqb_spec (msText (unDen u)) "") as [Zd|Zd]; cbn [snd]; [reflexivity|].
    exfalso. apply D. repeat split; auto.
  - intros utr insts ref m ->. unfold find_measurement. destruct (find _ _) as [u|]; auto.
    destruct (String.eqb (msText (unMeasure u)) ""); [|reflexivity].
    destruct (_ || _); reflexivity.
Qed.
Print Assumptions C42_denominator_partial.
Example C42_example :
  find_measurement (Ok (map_measurements [ex_units])) [Instance "i.xml" [] [ex_per_share] [] []] "ps"
  = (Some (ex_measurement "http://www.xbrl.org/2003/iso4217" "USD"), None).
Proof. reflexivity. Qed.

(** C43. Refuted: with two sibling elements the second is linked below the first. *)
Definition ex_href (n : xname) : string := "t.xsd#t_" ++ nlocal n.
Definition ex_siblings : list node :=
  [NElem (XName "t" "A") [NElem (XName "t" "B") [NText "1"]; NElem (XName "t" "C") [NText "2"]]].
Lemma ex_names n : In n [XName "t" "Dim"; XName "t" "A"; XName "t" "B"; XName "t" "C"] ->
  names_elem ex_env ex_scope ex_href n.
Proof.
  intro H. unfold names_elem.
  assert (E : exists c, resolve_name ex_env ex_scope (nspace n ++ ":" ++ nlocal n) = Some (ex_href n, c)).
  { simpl in H. destruct H as [<-|[<-|[<-|[<-|[]]]]]; eexists; reflexivity. }
  destruct E as [c E]. exists c. apply resolve_name_iff in E; auto. exact ex_env_ok.
Qed.
Theorem C43_nesting_refuted :
  ~ (forall q tokens attrs dimHref inner href ks d k order,
       qenv_ok q -> hash_query order q dimHref = Ok (k, d) -> 
       names q (nspace (cXMLName d)) (nlocal (cXMLName d)) dimHref d ->
       tokens inner = forest_tokens ks ->
       (forall n, In n (flat_map elems ks) -> names_elem q attrs href n) ->
       exists m arcs, hydrate_typed_members q tokens attrs dimHref inner = Ok (m, arcs) /\
         nested_list href dimHref ks (pairs_of arcs)).
Proof.
  intro H.
  destruct (H ex_env (fun _ => forest_tokens ex_siblings) ex_scope "t.xsd#t_Dim" "" ex_href ex_siblings
              (Concept (XName "urn:t" "Dim") "t_Dim" (XName "http://www.xbrl.org/2003/instance" "stringItemType")
                 (XName "" "") false "" "" false "") "urn:t" [("urn:t", "t.xsd")]) as (m&arcs&E&N).
  - exact ex_env_ok.
  - reflexivity.
  - apply names_iff; [exact ex_env_ok|]. reflexivity.
  - reflexivity.
  - intros n Hn. apply ex_names. simpl in Hn. simpl. tauto.
  - vm_compute in E. injection E; intros <- _. apply fnested_nested_list in N. discriminate N.
Qed.
Print Assumptions C43_nesting_refuted.

(** What holds for all contents whose elements are declared: the arcs lead to the
    elements in document order, numbered 1, 2, ..., each from the element that
    starts before it ... *)
Theorem C43_document_order_partial :
  forall q tokens attrs dimHref inner href ks d hd k order,
    qenv_ok q -> hash_query order q dimHref = Ok (k, d) ->
    names q (nspace (cXMLName d)) (nlocal (cXMLName d)) hd d ->
    tokens inner = forest_tokens ks ->
    (forall n, In n (flat_map elems ks) -> names_elem q attrs href n) ->
    exists m arcs l, hydrate_typed_members q tokens attrs dimHref inner = Ok (m, arcs) /\
      nested_list href dimHref ks l /\
      map taTo arcs = map snd l /\
      map taFrom arcs = removelast (dimHref :: map snd l) /\
      map taOrder arcs = map f64_of_nat (seq 1 (length l)).
Proof.
  intros q tokens attrs dimHref inner href ks d hd k order Hq Hh Hd HT HN.
  exists (fold_left put (flat_map (ftexts href hd) ks) []), (chain 0 dimHref (map href (flat_map elems ks))),
         (flat_map (fnested href dimHref) ks).
  split; [eapply hydrate_typed_members_spec; eauto|]. split; [now apply fnested_nested_list|].
  rewrite fnested_targets_list. repeat split.
  - apply chain_targets.
  - apply chain_sources.
  - rewrite chain_orders. rewrite <- (map_length snd (flat_map _ ks)), fnested_targets_list. reflexivity.
Qed.
Print Assumptions C43_document_order_partial.
(** ... which is the containing element if no element contains two elements.
    Missing: contents with sibling elements. *)
Theorem C43_nesting_partial :
  forall q tokens attrs dimHref inner href ks d hd k order,
    qenv_ok q -> hash_query order q dimHref = Ok (k, d) ->
    names q (nspace (cXMLName d)) (nlocal (cXMLName d)) hd d ->
    tokens inner = forest_tokens ks ->
    (forall n, In n (flat_map elems ks) -> names_elem q attrs href n) ->
    linear ks ->
    exists m arcs, hydrate_typed_members q tokens attrs dimHref inner = Ok (m, arcs) /\
      nested_list href dimHref ks (pairs_of arcs).
Proof.
  intros q tokens attrs dimHref inner href ks d hd k order Hq Hh Hd HT HN L.
  do 2 eexists. split; [eapply hydrate_typed_members_spec; eauto|].
  apply fnested_nested_list. now apply linear_chain_list.
Qed.
Print Assumptions C43_nesting_partial.
Example C43_example : linear [NElem (XName "t" "A") [NText " "; NElem (XName "t" "B") [NText "1"]; NOther]].
Proof. repeat split; simpl; lia. Qed.

(** C81. A declared content never crashes or is dropped (see above); an undeclared
    element name in a declared namespace does crash. *)
Theorem C81_undeclared_element_refuted :
  ~ (forall q tokens attrs dimHref inner ks, qenv_ok q -> tokens inner = forest_tokens ks ->
       hydrate_typed_members q tokens attrs dimHref inner <> Panic).
Proof.
  intro H. apply (H ex_env (fun _ => forest_tokens [NElem (XName "t" "Nope") []]) ex_scope "t.xsd#t_Dim" ""
                    [NElem (XName "t" "Nope") []] ex_env_ok eq_refl).
  reflexivity.
Qed.
Print Assumptions C81_undeclared_element_refuted.
(** Missing from the full claim: contents with an undeclared element. *)
Theorem C81_declared_content_partial :
  forall q tokens attrs dimHref inner href ks d hd k order,
    qenv_ok q -> hash_query order q dimHref = Ok (k, d) ->
    names q (nspace (cXMLName d)) (nlocal (cXMLName d)) hd d ->
    tokens inner = forest_tokens ks ->
    (forall n, In n (flat_map elems ks) -> names_elem q attrs href n) ->
    exists r, hydrate_typed_members q tokens attrs dimHref inner = Ok r.
Proof. intros. eexists. eapply hydrate_typed_members_spec; eauto. Qed.
Print Assumptions C81_declared_content_partial.

(** C82. Each text is stored, trimmed, under its own element (under the dimension if
    outside all elements); the last nonblank one wins; nothing else is stored. *)
Theorem C82_typed_values :
  forall q tokens attrs dimHref inner href ks d hd k order,
    qenv_ok q -> hash_query order q dimHref = Ok (k, d) ->
    names q (nspace (cXMLName d)) (nlocal (cXMLName d)) hd d ->
    tokens inner = forest_tokens ks ->
    (forall n, In n (flat_map elems ks) -> names_elem q attrs href n) ->
    exists m arcs l, hydrate_typed_members q tokens attrs dimHref inner = Ok (m, arcs) /\
      texts_list href hd ks l /\
      forall h v, sget h m = Some v <->
        v <> "" /\ exists s, trimmed_text s v /\
          last_such (fun kv => fst kv = h /\ ~ trimmed_text (snd kv) "") l (h, s).
Proof.
  intros q tokens attrs dimHref inner href ks d hd k order Hq Hh Hd HT HN.
  do 2 eexists. exists (flat_map (ftexts href hd) ks). split; [eapply hydrate_typed_members_spec; eauto|].
  split; [now apply ftexts_texts_list|]. intros h v. rewrite put_fold_last.
  assert (LS : forall s l, last_such (fun kv : string * string => fst kv = h /\ trim_space (snd kv) <> "") l (h, s) <->
               last_such (fun kv => fst kv = h /\ ~ trimmed_text (snd kv) "") l (h, s)).
  { intros s l. split; intros (l1&l2&E&P&Q); exists l1, l2; repeat split; auto; try apply P;
      try (intros y Hy [Y1 Y2]; apply (Q y Hy); split; auto; now rewrite trimmed_text_iff in * ).
    - rewrite trimmed_text_iff. apply P.
    - destruct P as [_ P]. now rewrite trimmed_text_iff in P. }
  split.
  - intros [(s&L&<-)|[_ H]]; [|discriminate]. split.
    + destruct L as (l1&l2&_&[_ P]&_). exact P.
    + exists s. split; [now apply trimmed_text_iff|now apply LS].
  - intros (_&s&T&L). left. exists s. split; [now apply LS|now apply trimmed_text_iff].
Qed.
Print Assumptions C82_typed_values.
Example C82_example :
  hydrate_typed_members ex_env (fun _ => forest_tokens ex_siblings) ex_scope "t.xsd#t_Dim" ""
  = Ok ([("t.xsd#t_B", "1"); ("t.xsd#t_C", "2")],
        [TArc (f64_of_nat 1) "t.xsd#t_Dim" "t.xsd#t_A"; TArc (f64_of_nat 2) "t.xsd#t_A" "t.xsd#t_B";
         TArc (f64_of_nat 3) "t.xsd#t_B" "t.xsd#t_C"]) /\
  forall n, In n (flat_map elems ex_siblings) -> names_elem ex_env ex_scope ex_href n.
Proof. split; [reflexivity|]. intros n Hn. apply ex_names. simpl in Hn. simpl. tauto. Qed.

(** A no-break space at an end is removed too. *)
Example C82_example_unicode :
  hydrate_typed_members ex_env (fun _ => forest_tokens [NElem (XName "t" "A") [NText (" " ++ utf8 [194; 160]%nat ++ "1 2" ++ utf8 [227; 128; 128]%nat)]])
    ex_scope "t.xsd#t_Dim" ""
  = Ok ([("t.xsd#t_A", "1 2")], [TArc (f64_of_nat 1) "t.xsd#t_Dim" "t.xsd#t_A"]).
Proof. reflexivity. Qed.

(** C78. The unit registry *)
Theorem C78_registry :
  forall us rest nsp id m,
    query_utr (Ok (map_measurements (us :: rest))) nsp id = Some m <-> registered us nsp id m.
Proof. exact query_utr_iff. Qed.
Print Assumptions C78_registry.
(** a registry that cannot be read, or is empty, has no entry *)
Theorem C78_no_registry :
  forall nsp id m, query_utr (Err m) nsp id = None /\ query_utr (Ok (map_measurements [])) nsp id = None.
Proof. split; reflexivity. Qed.
Print Assumptions C78_no_registry.
Example C78_example :
  query_utr (Ok (map_measurements [ex_units ++ [ex_utr "http://www.xbrl.org/2003/instance" "shares"; ex_utr "" "x"]]%list))
    "http://www.xbrl.org/2003/instance" "shares" = Some (ex_measurement "http://www.xbrl.org/2003/instance" "shares").
Proof. reflexivity. Qed.

(** FindFact: the first fact of the concept in the context, in instance order *)
Theorem C74_find_fact :
  forall insts href ctx f, find_fact insts href ctx = Some f <->
    first_such (fun f => fHref f = href /\ fContextRef f = ctx) (flat_map iFacts insts) f.
Proof.
  intros. unfold find_fact. rewrite find_first_such. split; apply first_such_iff; intros y _;
    now rewrite andb_true_iff, !String.eqb_eq.
Qed.
Print Assumptions C74_find_fact.
