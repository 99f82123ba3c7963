(** * ResponseProps: C119-C122 (the bytes of an answer) *)
From Verif Require Import GoBase GoSpec GoFacts AttrModel SchemaModel LinkbaseModel InstanceModel InstanceSpec
  LabelModel LabelSpec LabelProofs PeriodModel PeriodSpec FactModel GridModel GridSpec GridProofs GridProps
  CalcModel CalcSpec CalcProofs CalcProps DefModel RenderModel RenderSpec RenderProofs RenderProps
  CatalogModel CatalogSpec CatalogProofs CatalogProps ExpressModel JsonModel JsonSpec
  WebModel WebSpec WebProofs WebProps ResponseModel ResponseSpec ResponseProofs.
Local Open Scope string_scope.

(** ** C119: every answer is JSON and reads back as the answer *)
Lemma written_reads t R : written t R -> exists v, reads_as t v /\ R v.
Proof. intros (v&J&H). exists v. split; auto. split; auto. intros v' J'. eapply json_fun; eauto. Qed.
Theorem C119_catalog : forall c, exists v, reads_as (jcatalog c) v /\ catalog_value c v.
Proof. intro c. apply written_reads. apply catalog_writes. Qed.
Print Assumptions C119_catalog.
Theorem C119_renderable : forall calculated r s g roles langs,
  exists v, reads_as (jrenderable calculated (Renderable r s (g, roles, langs))) v /\
    renderable_value calculated r s g roles langs v.
Proof. intros. apply written_reads. apply renderable_writes. Qed.
Print Assumptions C119_renderable.
Theorem C119_expressable : forall x, exists v, reads_as (jexpressable x) v /\ expressable_value x v.
Proof. intro x. apply written_reads. apply expressable_writes. Qed.
Print Assumptions C119_expressable.
Definition sample_catalog : catalog :=
  marshal_catalog (Err "none") [ex_inst_with [("cik", "1")]] [ex_schema_with [("urn:r", "A ""B"" <C>")]] true "x.htm".
Example C119_example :
  jcatalog sample_catalog =
  "{""Subjects"":[{""Name"":""cik/1"",""Entity"":{""Scheme"":""cik"",""CharData"":""1""}}],""RelationshipSets"":[{""Title"":""A \""B\"" \u003cC\u003e"",""RoleURI"":""urn:r""}],""Networks"":{""cik/1"":{""urn:r"":"""
  ++ hash "cik/1" "urn:r" "A ""B"" <C>" ++ """}},""DocumentName"":""x.htm""}".
Proof. vm_compute. reflexivity. Qed.

(** ** C120: the bytes do not depend on the order in which maps are visited *)
Theorem C120_catalog :
  forall names insts insts' schemas schemas' doc entry, Permutation insts insts' -> Permutation schemas schemas' ->
    jcatalog (marshal_catalog names insts schemas doc entry) = jcatalog (marshal_catalog names insts' schemas' doc entry).
Proof.
  intros names insts insts' schemas schemas' doc entry PI PS.
  assert (EI : sorted_entities insts = sorted_entities insts').
  { eapply canonical_unique; [apply entities_canonical|]. destruct (entities_canonical insts') as [E S]. split; auto.
    intro x. rewrite E. unfold reported. split; intros (i&c&Hi&R); exists i, c; (split; [|exact R]);
      (eapply Permutation_in; [|exact Hi]); auto using Permutation_sym. }
  assert (ES : sorted_relationship_sets schemas = sorted_relationship_sets schemas').
  { eapply canonical_unique; [apply rsets_canonical|]. destruct (rsets_canonical schemas') as [E S]. split; auto.
    intro x. rewrite E. unfold declared. split; intros (s&t&Hs&R); exists s, t; (split; [|exact R]);
      (eapply Permutation_in; [|exact Hs]); auto using Permutation_sym. }
  unfold marshal_catalog. now rewrite EI, ES.
Qed.
Print Assumptions C120_catalog.
Lemma entry_fun {A} (m : list (string * A)) k a b : NoDup (map fst m) -> In (k, a) m -> In (k, b) m -> a = b.
Proof.
  induction m as [|[k' c] m IH]; cbn; [intros _ []|]. intros N Ha Hb. inversion N as [|? ? N1 N2]; subst.
  assert (X : forall d, In (k, d) m -> In k (map fst m)) by (intros d Hd; apply (in_map fst) in Hd; exact Hd).
  destruct Ha as [Ha|Ha], Hb as [Hb|Hb]; [congruence|injection Ha; intros; subst; exfalso; eauto|injection Hb; intros; subst; exfalso; eauto|auto].
Qed.
(** a map is written the same way in whatever order its entries are visited *)
Theorem C120_maps :
  forall A (f : A -> string) m m', NoDup (map fst m) -> Permutation m m' -> jmap f m = jmap f m'.
Proof.
  intros A f m m' N P. unfold jmap. do 2 f_equal. apply isort_perm_eq; auto.
  - apply ltb_swo.
  - intros [k a] [k' b] Hx Hy L1 L2. unfold key_less in L1, L2. cbn [fst] in L1, L2.
    apply ltb_false_iff in L1, L2. assert (k' = k) as -> by (now apply sle_antisym). f_equal. eapply entry_fun; eauto.
Qed.
Print Assumptions C120_maps.
Example C120_example :
  jmap quoted [("b", "1"); ("a", "2")] = "{""a"":""2"",""b"":""1""}" /\ jmap quoted [("a", "2"); ("b", "1")] = "{""a"":""2"",""b"":""1""}".
Proof. split; reflexivity. Qed.

(** ** C121: where an answer has null instead of a list *)

(** the only nulls below a value of the shape are members with one of these names *)
Definition nulls_in (names : list string) (R : value -> Prop) : Prop :=
  forall v, R v -> forall p, part v p JNull -> exists q n, p = (q ++ [n])%list /\ In n names.
Definition nulls_under (names : list string) (f : string * (value -> Prop)) : Prop :=
  forall v, snd f v -> forall p, part v p JNull -> exists q n, fst f :: p = (q ++ [n])%list /\ In n names.
Lemma ni_shows names s : nulls_in names (shows s).
Proof. intros v (t&->&_) p P. inversion P. Qed.
Lemma ni_flag names b : nulls_in names (flag b).
Proof. intros v -> p P. inversion P. Qed.
Lemma ni_count names n : nulls_in names (count n).
Proof. intros v -> p P. inversion P. Qed.
Lemma ni_list {A} names (R : A -> value -> Prop) l : (forall x, nulls_in names (R x)) -> nulls_in names (list_of R l).
Proof.
  intros H v (vs&->&F) p P. inversion P as [|l' x p' u I P'|]; subst.
  destruct (Forall2_In_r _ _ _ _ F I) as (y&_&Hy). destruct (H y x Hy _ P') as (q&n&->&Hn). exists ("" :: q), n. auto.
Qed.
Lemma ni_map {A} names (R : A -> value -> Prop) m : (forall x, nulls_in names (R x)) -> nulls_in names (map_of R m).
Proof.
  intros H v (l&ms&_&_&->&F) p P. inversion P as [| |l' k x p' u I P']; subst.
  destruct (Forall2_In_r _ _ _ _ F I) as (y&_&_&Hy). destruct (H (snd y) x Hy _ P') as (q&n&->&Hn). exists (k :: q), n. auto.
Qed.
Lemma ni_under names k R : nulls_in names R -> nulls_under names (k, R).
Proof. intros H v Hv p P. destruct (H v Hv p P) as (q&n&->&Hn). exists (k :: q), n. auto. Qed.
Lemma ni_null names k R : In k names -> nulls_in names R \/ R = null -> nulls_under names (k, R).
Proof.
  intros I [H| ->]; [now apply ni_under|]. intros v Hv p P. cbn [snd fst] in *. unfold null in Hv. subst v.
  inversion P; subst. exists [], k. auto.
Qed.
Lemma ni_obj names fields : Forall (nulls_under names) fields -> nulls_in names (object fields).
Proof.
  intros H v (ms&->&F) p P. inversion P as [| |l' k x p' u I P']; subst.
  destruct (Forall2_In_r _ _ _ _ F I) as (y&Hy&E&Hx). cbn in E, Hx. subst k.
  rewrite Forall_forall in H. exact (H y Hy x Hx _ P').
Qed.
Lemma ni_opt {A} names k (R : A -> value -> Prop) o : (forall x, nulls_in names (R x)) -> Forall (nulls_under names) (optional k R o).
Proof. intro H. destruct o; constructor; [|constructor]. apply ni_under. auto. Qed.
Ltac nulls := repeat match goal with
  | |- forall _, _ => intro
  | |- nulls_in _ (shows _) => apply ni_shows
  | |- nulls_in _ (flag _) => apply ni_flag
  | |- nulls_in _ (count _) => apply ni_count
  | |- nulls_in _ (list_of _ _) => apply ni_list
  | |- nulls_in _ (map_of _ _) => apply ni_map
  | |- nulls_in _ (object _) => apply ni_obj
  | |- Forall _ (_ :: _) => apply Forall_cons
  | |- Forall _ [] => constructor
  | |- Forall _ (_ ++ _) => apply Forall_app; split
  | |- Forall _ (optional _ _ _) => apply ni_opt
  | |- nulls_under _ (_, _) => apply ni_under
  end.
Definition lists_that_may_be_null := ["FootnoteGrid"; "Footnotes"; "SummationItems"].
Lemma ni_langs names l : nulls_in names (languages l). Proof. unfold languages. nulls. Qed.
Lemma ni_labels names p : nulls_in names (labels p). Proof. unfold labels. nulls. apply ni_langs. Qed.
Lemma ni_labelled names x : nulls_in names (concept_with_labels x). Proof. unfold concept_with_labels. nulls. apply ni_labels. Qed.
Lemma ni_rset names r : nulls_in names (relationship_set r). Proof. unfold relationship_set. nulls. Qed.
Lemma ni_subject names s : nulls_in names (subject_value s). Proof. unfold subject_value. nulls. Qed.
Lemma ni_member names c : nulls_in names (member_value c). Proof. unfold member_value. nulls. apply ni_labelled. Qed.
Lemma ni_dimension names c : nulls_in names (dimension_value c). Proof. unfold dimension_value. nulls; apply ni_labelled. Qed.
Lemma ni_fact names m : nulls_in names (fact_value m). Proof. unfold fact_value, expression_value. nulls. Qed.
Lemma ni_catalog names c : nulls_in names (catalog_value c).
Proof. unfold catalog_value. nulls; [apply ni_subject|apply ni_rset]. Qed.
Lemma ni_expressable names x : nulls_in names (expressable_value x).
Proof. unfold expressable_value. nulls; [apply ni_labels|apply ni_langs|apply ni_dimension|apply ni_member|apply ni_fact]. Qed.
Lemma ni_columns names a b c : Forall (nulls_under names) (columns_fields a b c).
Proof. unfold columns_fields. nulls; [apply ni_langs|apply ni_member|apply ni_dimension]. Qed.
Lemma ni_facts a g n : Forall (nulls_under lists_that_may_be_null) (facts_fields a g n).
Proof.
  unfold facts_fields. constructor; [nulls; apply ni_fact|].
  constructor; [apply ni_null; [simpl; auto|destruct g; [now right|left; nulls]]|].
  constructor; [apply ni_null; [simpl; auto|destruct g; [now right|left; nulls]]|constructor].
Qed.
Lemma ni_row names k x : nulls_in names (row_value k x). Proof. unfold row_value. nulls. apply ni_labels. Qed.
Lemma ni_renderable calculated r s g roles langs :
  nulls_in lists_that_may_be_null (renderable_value calculated r s g roles langs).
Proof.
  unfold renderable_value. apply ni_obj.
  apply Forall_cons; [apply ni_under, ni_rset|]. apply Forall_cons; [apply ni_under, ni_subject|].
  apply Forall_cons; [nulls|]. apply Forall_cons; [nulls|].
  apply Forall_cons; [apply ni_under|apply Forall_cons; [apply ni_under|]].
  - unfold p_grid_value. nulls; [apply ni_row|apply ni_columns|apply ni_facts].
  - unfold d_grid_value. nulls.
    + unfold root_value. nulls; [apply ni_labels|apply ni_row|apply ni_columns|apply ni_facts| |apply ni_labelled].
      unfold domain_member_value. nulls. apply ni_labels.
    + apply ni_labelled.
    + unfold drs_link_value. nulls.
  - constructor; [|constructor]. apply ni_under, ni_obj. constructor; [|constructor].
    apply ni_null; [simpl; auto|]. destruct calculated; [left|now right]. nulls. unfold item_value.
    nulls; [apply ni_labels|apply ni_columns| |apply ni_facts]. unfold contributing_value. nulls. apply ni_labels.
Qed.

(** The renderable of a report: its grids for an entity and a role, and a schedule of the
    goroutines. *)
Record grids_of (p : res (p_grid * list string * list string)) (d : res (d_grid * list string * list string))
    (cg : res (list summation_item * list string * list string)) (role : string) (calcs : list (linkbase carc)) : Prop := {
  go_p : exists tree lbl concept_of gp entity pres, p = p_grid_of tree lbl concept_of gp entity role pres;
  go_d : exists tree lbl concept_of gd dims_order format_order order entity defs defs',
           d = d_grid_of tree lbl concept_of gd dims_order format_order order entity role defs defs';
  go_c : exists tree lbl concept_of gc entity corder, cg = get_summation_items tree lbl concept_of gc entity corder role calcs }.

Lemma object_part fields v k R : object fields v -> In (k, R) fields ->
  exists x, R x /\ forall p u, part x p u -> part v (k :: p) u.
Proof.
  intros (ms&->&F) I. destruct (Forall2_In_l _ _ _ _ F I) as ([k' x]&Hx&E&Rx). cbn in E, Rx. subst k'.
  exists x. split; auto. intros p u P. eapply part_member; eauto.
Qed.
Lemma object_member fields v k R : object fields v -> NoDup (map fst fields) -> In (k, R) fields ->
  exists x, R x /\ forall p u, part v (k :: p) u <-> part x p u.
Proof.
  intros (ms&->&F) N I. destruct (Forall2_In_l _ _ _ _ F I) as ([k' x]&Hx&E&Rx). cbn in E, Rx. subst k'.
  exists x. split; auto. intros p u. split.
  - intro P. inversion P as [| |l' k' y p' u' I' P']; subst.
    replace x with y; auto. assert (map fst ms = map fst fields) as M.
    { clear -F. induction F as [|f m fs ms [E _] F IH]; cbn; congruence. }
    rewrite <- M in N. eapply entry_fun; eauto.
  - intro P. eapply part_member; eauto.
Qed.
Ltac distinct := cbn; repeat constructor; cbn; intuition discriminate.
Lemma part_nil v u : part v [] u -> u = v.
Proof. intro P. inversion P; auto. Qed.

(** Refuted: the renderable of a role without networks has null for three lists. *)
Theorem C121_refuted :
  ~ (forall es p d cg role calcs c r s g roles langs v q, grids_of p d cg role calcs ->
       rsteps (started p d cg) c -> rdone c -> rendered es p d cg c = (g, roles, langs) ->
       reads_as (jrenderable (linked role calcs) (Renderable r s (g, roles, langs))) v -> ~ part v q JNull).
Proof.
  intro H.
  set (p := p_grid_of sample_tree sample_label sample_concept (calc_genv "") "http://cik/0001" "urn:r" []).
  set (d := d_grid_of sample_tree sample_label sample_concept (fun _ => calc_genv "") (fun _ _ => []) (fun _ => "") (fun l => l) "http://cik/0001" "urn:r" [] []).
  set (cg := get_summation_items sample_tree sample_label sample_concept calc_genv "http://cik/0001" (fun l => l) "urn:r" []).
  assert (G : grids_of p d cg "urn:r" []).
  { split.
    - exists sample_tree, sample_label, sample_concept, (calc_genv ""), "http://cik/0001", []. reflexivity.
    - exists sample_tree, sample_label, sample_concept, (fun _ => calc_genv ""), (fun _ _ => []), (fun _ => ""), (fun l => l), "http://cik/0001", [], [].
      reflexivity.
    - exists sample_tree, sample_label, sample_concept, calc_genv, "http://cik/0001", (fun l => l). reflexivity. }
  assert (R : exists c, rsteps (started p d cg) c /\ rdone c).
  { destruct (follow (repeat (0, 0) 6 ++ repeat (1, 0) 6 ++ repeat (2, 0) 6)%nat%list (started p d cg)) as [c|] eqn:F; [|vm_compute in F; discriminate F].
    exists c. split; [eapply follow_steps; eauto|]. vm_compute in F. injection F as <-. intros t [<-|[<-|[<-|[]]]]; reflexivity. }
  destruct R as (c&R&D). destruct (rendered (fun _ => None) p d cg c) as [[g roles] langs] eqn:E.
  destruct (C119_renderable (linked "urn:r" []) (RSet "" "urn:r") (Subject "" (Entity "" "")) g roles langs) as (v&J&V).
  apply (H _ _ _ _ _ _ _ _ _ _ _ _ _ ["CGrid"; "SummationItems"] G R D E J).
  unfold renderable_value in V. eapply object_part in V as (x&X&P); [|do 6 right; left; reflexivity]. apply P.
  eapply object_part in X as (y&Y&Q); [|left; reflexivity]. cbn in Y. unfold null in Y. subst y. apply Q. constructor.
Qed.
Print Assumptions C121_refuted.

(** What holds: catalogs and facts have no null at all; ... *)
Theorem C121_catalog_partial : forall c v q, reads_as (jcatalog c) v -> ~ part v q JNull.
Proof.
  intros c v q [J U] P. destruct (C119_catalog c) as (v'&[J' _]&V). apply U in J'. subst v'.
  destruct (ni_catalog [] c v V q P) as (?&?&_&[]).
Qed.
Print Assumptions C121_catalog_partial.
Theorem C121_expressable_partial : forall x v q, reads_as (jexpressable x) v -> ~ part v q JNull.
Proof.
  intros x v q [J U] P. destruct (C119_expressable x) as (v'&[J' _]&V). apply U in J'. subst v'.
  destruct (ni_expressable [] x v V q P) as (?&?&_&[]).
Qed.
Print Assumptions C121_expressable_partial.
Lemma no_network {A} role (lbs : list (linkbase A)) : first_link role lbs = None <-> ~ exists lb, In lb lbs /\ has_network role lb.
Proof.
  induction lbs as [|lb rest IH]; cbn [first_link]; [split; auto; intros _ (?&[]&_)|].
  pose proof (has_networkP role lb) as HN. destruct (if existsb _ _ then _ else _) as [k|].
  - split; [discriminate|]. intro N. exfalso. apply N. exists lb. split; [now left|]. now apply HN.
  - rewrite IH. split; intros N (l&H&Hl).
    + destruct H as [<-|H]; [now apply HN in Hl|eauto].
    + apply N. exists l. split; [now right|auto].
Qed.
Lemma quadrant_null tree env o o' hrefs cols langs rows grid notes :
  get_factual_quadrant tree env o o' hrefs cols langs = Ok (rows, grid, notes) -> grid = [] <-> hrefs = [] \/ cols = [].
Proof.
  intro E. split.
  - intros ->. destruct hrefs as [|h t]; auto. destruct cols as [|k u]; auto. exfalso.
    apply quadrant_shape in E as [_ [L _]]; discriminate.
  - intros [-> | ->]; unfold get_factual_quadrant in E; [|destruct hrefs]; injection E; auto.
Qed.
(** ... in a renderable only these lists can be null: the footnotes of a grid, which are in
    the presentation grid exactly if it has no rows or no columns, and the summation
    items, which are exactly if the role has no calculation network. *)
Theorem C121_renderable_partial :
  forall es p d cg role calcs c r s g roles langs v, grids_of p d cg role calcs ->
    rendered es p d cg c = (g, roles, langs) ->
    reads_as (jrenderable (linked role calcs) (Renderable r s (g, roles, langs))) v ->
    (forall q, part v q JNull -> exists q' n, q = (q' ++ [n])%list /\ In n ["FootnoteGrid"; "Footnotes"; "SummationItems"]) /\
    (part v ["CGrid"; "SummationItems"] JNull <-> ~ exists lb, In lb calcs /\ has_network role lb) /\
    (forall n, In n ["FootnoteGrid"; "Footnotes"] -> part v ["PGrid"; n] JNull <->
       part v ["PGrid"; "IndentedLabels"] (JArr []) \/ part v ["PGrid"; "PeriodHeaders"] (JArr [])).
Proof.
  intros es p d cg role calcs c r s g roles langs v [(tree&lbl&co&gp&entity&pres&Ep) _ _] ER [J U].
  destruct (C119_renderable (linked role calcs) r s g roles langs) as (v'&[J' _]&V). apply U in J'. subst v'.
  split; [|split].
  - intros q P. apply (ni_renderable _ _ _ _ _ _ _ V q P).
  - rewrite <- no_network, <- (calc_link_eq role []) by (intros ? []). unfold renderable_value, linked in V. split.
    + intro P. eapply object_member in V as (x&X&E); [|distinct|do 6 right; left; reflexivity]. apply E in P.
      eapply object_member in X as (y&Ry&E'); [|distinct|left; reflexivity]. apply E' in P.
      apply part_nil in P. subst y. destruct (calc_link role [] calcs); auto. destruct Ry as (?&?&_). discriminate.
    + intro N. rewrite N in V. eapply object_part in V as (x&X&P); [|do 6 right; left; reflexivity]. apply P.
      eapply object_part in X as (y&Y&Q); [|left; reflexivity]. cbn in Y. unfold null in Y. subst y. apply Q. constructor.
  - assert (PG : pgFootnoteGrid (gdP g) = [] <-> pgLabels (gdP g) = [] \/ pgPeriods (gdP g) = []).
    { unfold rendered in ER. injection ER as <- _ _. cbn [gdP format_p pgFootnoteGrid pgLabels pgPeriods]. unfold format_relevant_period.
      destruct p as [[[p0 rs] ls]| |]; cbn [grid_or zero_p pgFootnoteGrid pgLabels pgPeriods]; [|tauto|tauto].
      symmetry in Ep. unfold p_grid_of in Ep. destruct (get_indented_labels _ _ _ _) as [labels packs].
      destruct (get_relevant_contexts _ _ _ _ _ _ _) as [[[[cols seg] scen] cp]| |]; cbn [bind] in Ep; try discriminate.
      destruct (ge_destruct _ _) as [rs' ls']. destruct (get_factual_quadrant _ _ _ _ _ _ _) as [[[f g0] n]| |] eqn:Q; cbn [bind] in Ep; try discriminate.
      destruct (get_member_grid _ _ _ _) as [[m vo]| |]; cbn [bind] in Ep; try discriminate.
      injection Ep as <- _ _. cbn [pgFootnoteGrid pgLabels pgPeriods]. apply quadrant_null in Q. rewrite Q.
      unfold get_period_headers. destruct labels, cols; cbn; intuition discriminate. }
    intros n Hn. unfold renderable_value in V.
    eapply object_member in V as (x&X&E); [|distinct|do 4 right; left; reflexivity]. rewrite !E. unfold p_grid_value in X.
    assert (LE : forall {A} (R : A -> value -> Prop) l y, list_of R l y -> part y [] (JArr []) <-> l = []).
    { intros A R l y (vs&->&F). split.
      - intro P. apply part_nil in P. injection P as <-. now inversion F.
      - intros ->. inversion F; subst. constructor. }
    pose proof X as X1. eapply object_member in X1 as (y1&Y1&E1); [|distinct|left; reflexivity]. rewrite E1, (LE _ _ _ _ Y1).
    pose proof X as X2. eapply object_member in X2 as (y2&Y2&E2); [|distinct|right; left; reflexivity]. rewrite E2, (LE _ _ _ _ Y2).
    rewrite <- PG.
    assert (LN : forall {A} (R : A -> value -> Prop) l y, (match pgFootnoteGrid (gdP g) with [] => null | _ => list_of R l end) y ->
      part y [] JNull <-> pgFootnoteGrid (gdP g) = []).
    { intros A R l y. destruct (pgFootnoteGrid (gdP g)) as [|a t].
      - intro Hy. unfold null in Hy. subst y. split; auto. intros _. constructor.
      - intros (vs&->&_). split; [intro P; apply part_nil in P; discriminate P|discriminate]. }
    destruct Hn as [<-|[<-|[]]].
    + eapply object_member in X as (y&Y&E3); [|distinct|do 5 right; left; reflexivity]. rewrite E3. eapply LN. exact Y.
    + eapply object_member in X as (y&Y&E3); [|distinct|do 6 right; left; reflexivity]. rewrite E3. eapply LN. exact Y.
Qed.
Print Assumptions C121_renderable_partial.
Example C121_example : exists c v r s,
  grids_of render_p render_d render_c calc_role [sample_calc] /\
  rsteps (started render_p render_d render_c) c /\ rdone c /\
  reads_as (jrenderable (linked calc_role [sample_calc]) (Renderable r s (rendered (fun _ => None) render_p render_d render_c c))) v /\
  ~ part v ["CGrid"; "SummationItems"] JNull /\ ~ part v ["PGrid"; "Footnotes"] JNull.
Proof.
  destruct serial_sample as (c&R&D&Er&El). exists c.
  assert (G : grids_of render_p render_d render_c calc_role [sample_calc]).
  { split.
    - exists sample_tree, (get_label calc_labels), calc_concept, (calc_genv ""), "http://cik/0001", [render_pre]. reflexivity.
    - exists sample_tree, (get_label calc_labels), calc_concept, (fun _ => calc_genv ""), (fun _ _ => []), (fun _ => ""), (fun l => l), "http://cik/0001", [], [].
      reflexivity.
    - exists sample_tree, (get_label calc_labels), calc_concept, calc_genv, "http://cik/0001", (fun m => m). reflexivity. }
  destruct (rendered (fun _ => None) render_p render_d render_c c) as [[g roles] langs] eqn:E.
  destruct (C119_renderable (linked calc_role [sample_calc]) (RSet "T" calc_role) (Subject "N" (Entity "http://cik" "0001")) g roles langs) as (v&J&V).
  exists v, (RSet "T" calc_role), (Subject "N" (Entity "http://cik" "0001")). split; [exact G|]. split.
  { clear - R. induction R; [constructor|econstructor; eauto]. }
  split; [exact D|]. split; [exact J|].
  destruct (C121_renderable_partial _ _ _ _ _ _ _ _ _ _ _ _ _ G E J) as (_&H1&H2). split.
  - rewrite H1. intro N. apply N. exists sample_calc. split; [now left|]. apply has_networkP. vm_compute. discriminate.
  - rewrite (H2 "Footnotes") by (right; left; reflexivity). unfold renderable_value in V.
    eapply object_member in V as (x&X&E0); [|distinct|do 4 right; left; reflexivity]. rewrite !E0.
    unfold rendered in E. injection E as <- _ _. unfold p_grid_value in X. intros [P|P].
    + eapply object_member in X as (y&Y&E1); [|distinct|left; reflexivity]. destruct Y as (vs&->&F). apply E1, part_nil in P. injection P as <-.
      vm_compute in F. inversion F.
    + eapply object_member in X as (y&Y&E1); [|distinct|right; left; reflexivity]. destruct Y as (vs&->&F). apply E1, part_nil in P. injection P as <-.
      cbn [gdP format_p pgPeriods] in F. rewrite El in F. vm_compute in F. inversion F.
Qed.
