(** * CrashProps: C130 (displaying a report does not crash the server) *)
From Verif Require Import GoBase GoSpec GoFacts AttrModel AttrSpec AttrProofs SchemaModel SchemaSpec SchemaProofs SchemaProps
  LinkbaseModel LinkbaseSpec LinkbaseProofs LinkbaseProps InstanceModel InstanceSpec InstanceProofs InstanceProps
  HydrateModel HydrateSpec HydrateProofs HydrateProps LabelModel LabelSpec LabelProofs LabelProps PeriodModel PeriodSpec PeriodProofs PeriodProps
  FactModel FactSpec FactProofs FactProps GridModel GridSpec GridProofs GridProps CalcModel CalcSpec CalcProofs CalcProps DefModel DefSpec DefProofs DefProps
  RenderModel RenderSpec RenderProofs RenderProps
  DiscoverModel DiscoverSpec DiscoverProofs DiscoverProps XmlModel XmlSpec XmlProofs XmlProps LoadModel LoadSpec LoadProofs LoadProps
  CatalogModel CatalogSpec CatalogProofs CatalogProps ReportModel ResponseModel ResponseSpec ResponseProofs ResponseProps EndToEndSpec EndToEndProps ReportSpec ReportProofs ReportProps.
Local Open Scope string_scope.

(** ** Typed members: the trees of their elements have no blank top node *)

(** every arc starts at the dimension or where another arc ends *)
Definition from_dimension (dim : string) (arcs : list tarc) : Prop :=
  forall a, In a arcs -> taFrom a = dim \/ exists b, In b arcs /\ taTo b = taFrom a.
Definition rooted (dim : string) (arcs : list tarc) (href : string) : Prop := href = dim \/ exists b, In b arcs /\ taTo b = href.
Lemma rooted_more dim arcs a href : rooted dim arcs href -> rooted dim (arcs ++ [a]) href.
Proof. intros [->|(b&Hb&E)]; [now left|]. right. exists b. split; auto. apply in_or_app. now left. Qed.
Lemma typed_loop q attrs dimension dim ts : forall s m arcs, from_dimension dim (ts_arcs s) -> rooted dim (ts_arcs s) (ts_prevHref s) ->
  tm_loop q attrs dimension ts s = Ok (m, arcs) -> from_dimension dim arcs.
Proof.
  induction ts as [|t ts IH]; intros s m arcs F R; cbn [tm_loop].
  - intros [= _ <-]. exact F.
  - destruct (tm_token q attrs dimension t s) as [s'| |] eqn:T; [|intros [= _ <-]; intros ? []|discriminate].
    apply IH; revert T; destruct t as [n|n|txt|]; cbn [tm_token].
    all: repeat match goal with |- context [if ?x then _ else _] => destruct x end.
    all: repeat match goal with |- context [match ?x with _ => _ end] => destruct x end.
    all: try discriminate; intros [= <-]; cbn [ts_arcs ts_prevHref]; auto.
    all: try (intros a Ha; apply in_app_or in Ha as [Ha|[<-|[]]]; [apply (rooted_more dim _ _ _ (F a Ha))|apply (rooted_more dim _ _ _ R)]).
    all: right; eexists; (split; [apply in_or_app; right; left; reflexivity|reflexivity]).
Qed.
Lemma typed_members_rooted q tokens attrs dim inner m arcs : hydrate_typed_members q tokens attrs dim inner = Ok (m, arcs) -> from_dimension dim arcs.
Proof.
  unfold hydrate_typed_members. destruct (hash_query _ _ _) as [[k c]|e|]; [|intros [= _ <-]; intros ? []|discriminate].
  apply typed_loop; cbn; [intros ? []|now left].
Qed.
Definition sound_member (t : typed_member) : Prop := tmDimHref t <> "" /\ from_dimension (tmDimHref t) (tmArcs t).
Definition sound_context (c : context) : Prop :=
  (forall t, In t (dcTyped (ctxSegment c)) -> sound_member t) /\ (forall t, In t (dcTyped (ctxScenario c)) -> sound_member t).
Lemma collectM_sound {A B} (f : A -> res (option B)) (P : B -> Prop) l : (forall x y, f x = Ok (Some y) -> P y) -> forall l', collectM f l = Ok l' -> forall y, In y l' -> P y.
Proof.
  intro H. induction l as [|x l IH]; intros l'; cbn [collectM]; [intros [= <-] ? []|].
  destruct (f x) as [o|e|] eqn:E; cbn [bind]; try discriminate. destruct (collectM f l) as [ys|e|] eqn:C; cbn [bind]; try discriminate.
  intros [= <-] y Hy. destruct o as [z|]; [destruct Hy as [<-|Hy]; eauto|eauto].
Qed.
Lemma member_sound ne q tokens attrs e t : qenv_ok q -> hydrate_typed_member ne q tokens attrs e = Ok (Some t) -> sound_member t.
Proof.
  intros Q. unfold hydrate_typed_member.
  destruct (find_attr (eattrs e) "dimension") as [da|]; cbn [obind]; [|discriminate].
  destruct (oguard _) as [[]|]; cbn [obind]; [|discriminate].
  destruct (resolve_name q attrs (avalue da)) as [[dr dc]|] eqn:RN; cbn [obind]; [|discriminate].
  destruct (hydrate_typed_members _ _ _ _ _) as [[m arcs]|e'|] eqn:TM; cbn [bind]; [|discriminate|discriminate].
  intros [= <-]. split; cbn [tmDimHref tmArcs fst snd].
  - unfold resolve_name in RN. destruct (oguard _) as [[]|] in RN; cbn [obind] in RN; [|discriminate].
    unfold InstanceModel.found in RN. destruct (name_query _ _ _) as [[[h' c']|]|e'|]; try discriminate.
    destruct (String.eqb h' "") eqn:E; [discriminate|]. injection RN as <- <-. now apply String.eqb_neq.
  - eapply typed_members_rooted; eauto.
Qed.
Lemma dims_sound ne q tokens attrs segs d : qenv_ok q -> hydrate_dim_context ne q tokens attrs segs = Ok d -> forall t, In t (dcTyped d) -> sound_member t.
Proof.
  intro Q. destruct segs as [|s segs]; cbn [hydrate_dim_context]; [intros [= <-] ? []|].
  destruct (collectM _ _) as [tms|e|] eqn:C; cbn [bind]; try discriminate. intros [= <-]. cbn [dcTyped].
  eapply collectM_sound; [|exact C]. intros x y. now apply member_sound.
Qed.
Lemma context_sound q tokens attrs e c : qenv_ok q -> hydrate_context q tokens attrs e = Ok (Some c) -> sound_context c.
Proof.
  intro Q. unfold hydrate_context. destruct (negb _); [discriminate|]. destruct (req _ _) as [id|]; [|discriminate].
  destruct (cx_entity e) as [|en ens]; [discriminate|]. destruct (en_identifier en) as [|idt idts]; [discriminate|].
  destruct (String.eqb (etext idt) ""); [discriminate|]. destruct (find_attr _ "scheme") as [sa|]; [|discriminate].
  destruct (hydrate_dim_context false _ _ _ _) as [sg|m|] eqn:S1; cbn [bind]; try discriminate.
  destruct (hydrate_dim_context true _ _ _ _) as [sc|m|] eqn:S2; cbn [bind]; try discriminate.
  destruct (match cx_period e with [] => _ | _ => _ end) as [instant [st en']].
  intros [= <-]. split; cbn [ctxSegment ctxScenario]; eapply dims_sound; eauto.
Qed.
Lemma instance_sound q tokens f file i : qenv_ok q -> hydrate_instance q tokens f file = Ok i -> forall c, In c (iContexts i) -> sound_context c.
Proof.
  intro Q. unfold hydrate_instance. destruct (negb _); [discriminate|]. destruct f as [f|]; [|discriminate].
  unfold hydrate_contexts. destruct (collectM _ _) as [cs|m|] eqn:C; cbn [bind]; try discriminate. intros [= <-] c Hc. cbn [iContexts] in Hc.
  apply isort_in in Hc. revert c Hc. eapply collectM_sound; [|exact C]. intros x y. now apply context_sound.
Qed.

(** ** The rows of the dimensions *)
Definition headed (r : rarc) : Prop := forall c, In c (ra_children r) -> ra_locator c <> "".
Lemma typed_tree_headed tree t : faithful_tree tree -> sound_member t -> headed (tree (tdom_arcs (tmArcs t)) typedDomainArcRole).
Proof.
  intros FT [NE FD] c Hc. destruct (FT (tdom_arcs (tmArcs t)) typedDomainArcRole) as (_&G&T). destruct (G c Hc) as (g&Hg).
  destruct (proj2 (T (ra_locator c) (ra_locator g))) as [(a&Ha&_&Fa&_) NT]; [eauto 10|].
  unfold tdom_arcs in Ha. apply in_map_iff in Ha as (x&<-&Hx). cbn [arFrom] in Fa.
  destruct (FD x Hx) as [E|(b&Hb&E)]; [congruence|]. exfalso.
  apply (NT (Arc typedDomainArcRole (taOrder b) (taFrom b) (taTo b))); [|reflexivity|cbn; congruence]. unfold tdom_arcs. apply in_map_iff. eauto.
Qed.
Lemma reduce_headed trees : (forall r, In r trees -> headed r) -> headed (reduce_trees trees) /\ ra_locator (reduce_trees trees) = "".
Proof.
  intro H. unfold reduce_trees. destruct (forallb _ _); [|split; [intros ? []|reflexivity]]. split; [|reflexivity].
  unfold dedup_nodes. intros c Hc. cbn [ra_children] in Hc.
  destruct (forest_height _) as [|n]; cbn [dedup_children] in Hc; [destruct Hc|].
  apply in_map_iff in Hc as ([k l]&<-&Hl). cbn [ra_locator]. apply in_combine_r in Hl. apply (proj1 (dedup_In _ _)) in Hl.
  apply in_map_iff in Hl as (x&<-&Hx). apply in_flat_map in Hx as (r&Hr&Hx). now apply (H r).
Qed.
(** below a dimension nothing goes wrong *)
Definition fine {A} (f : option labelled * A -> res (option labelled * A)) : Prop :=
  forall d ret, exists d' ret', f (Some d, ret) = Ok (Some d', ret').
Lemma run_fine {A} (l : list (option labelled * A -> res (option labelled * A))) : (forall f, In f l -> fine f) -> fine (run l).
Proof.
  induction l as [|f l IH]; intros H d ret; cbn [run]; [eauto|].
  destruct (H f (or_introl eq_refl) d ret) as (d'&ret'&->). cbn [bind]. apply IH. intros; apply H; now right.
Qed.
Lemma indents_fine dims typed paren r : forall level, fine (make_indents dims typed r paren level).
Proof.
  induction r as [l o cs IH] using rarc_rect'. intros level d ret. rewrite make_indents_eq. cbn [fst].
  assert (R : fine (run (map (fun c => make_indents dims typed c paren (S level)) (isort by_order cs)))).
  { apply run_fine. intros f Hf. apply in_map_iff in Hf as (c&<-&Hc). apply isort_in in Hc. rewrite Forall_forall in IH. now apply IH. }
  destruct (Nat.eqb level 1); cbn [bind]; (destruct (Nat.ltb 1 level && nonempty l); [|apply R]); (destruct (sget l typed); [|eauto]); apply R.
Qed.
Lemma heads_fine dims typed paren cs : (forall c, In c cs -> ra_locator c <> "") -> forall st, exists st',
  run (map (fun c => make_indents dims typed c paren 1) cs) st = Ok st'.
Proof.
  induction cs as [|[l o ks] cs IH]; intros H [dim ret]; cbn [map run]; [eauto|].
  assert (K : exists st', make_indents dims typed (RArc l o ks) paren 1 (dim, ret) = Ok st').
  { destruct dim as [d|]; [destruct (indents_fine dims typed paren (RArc l o ks) 1 d ret) as (d'&ret'&->); eauto|].
    rewrite make_indents_eq. cbn [fst snd]. assert (NE := H _ (or_introl eq_refl)). cbn [ra_locator] in NE. apply nonempty_iff in NE. rewrite NE.
    destruct (sget l dims) as [d|]; [|eauto]. cbn [Nat.eqb bind]. cbn [Nat.ltb Nat.leb andb].
    destruct (run_fine (map (fun c => make_indents dims typed c paren 2) (isort by_order ks))) with (d := d) (ret := (ret ++ [VoidCell paren 1 d None])%list) as (d'&ret'&E).
    { intros f Hf. apply in_map_iff in Hf as (c&<-&_). apply indents_fine. }
    cbv zeta. eexists. exact E. }
  destruct K as (st'&->). cbn [bind]. apply IH. intros; apply H; now right.
Qed.
Lemma indents_ok dims typed paren r : headed r -> ra_locator r = "" -> forall st, exists st', make_indents dims typed r paren 0 st = Ok st'.
Proof.
  intros H E [dim ret]. destruct r as [l o cs]. cbn [ra_locator] in E. subst l. rewrite make_indents_eq. cbn [fst snd nonempty].
  assert (K : forall st, exists st', run (map (fun c => make_indents dims typed c paren 1) (isort by_order cs)) st = Ok st').
  { apply heads_fine. intros c Hc. apply isort_in in Hc. now apply H. }
  destruct dim as [d|]; cbn; apply K.
Qed.
Lemma member_grid_ok mo cols seg scen : (forall r, In r seg -> headed r) -> (forall r, In r scen -> headed r) ->
  get_member_grid mo cols seg scen <> Panic.
Proof.
  intros H1 H2. unfold get_member_grid. destruct cols as [|c0 cs0]; [discriminate|]. unfold get_void_quadrant. cbv zeta.
  destruct (reduce_headed (isort locator_less seg)) as [R1 E1]; [intros r Hr; apply isort_in in Hr; auto|].
  destruct (reduce_headed (isort locator_less scen)) as [R2 E2]; [intros r Hr; apply isort_in in Hr; auto|].
  match goal with |- context [make_indents ?a ?b (reduce_trees (isort locator_less seg)) ?c ?d ?e] => destruct (indents_ok a b c _ R1 E1 e) as (st1&->) end.
  cbn [bind]. match goal with |- context [make_indents ?a ?b (reduce_trees (isort locator_less scen)) ?c ?d ?e] => destruct (indents_ok a b c _ R2 E2 e) as (st2&->) end.
  cbn [bind]. discriminate.
Qed.

(** ** The grids of a network *)
Definition calm {A} (r : res A) : Prop := r <> Panic.
Lemma foldM_calm {A B} (f : A -> B -> res A) l : (forall b a, In b l -> calm (f a b)) -> forall a, calm (foldM f l a).
Proof.
  induction l as [|b l IH]; intros H a; cbn [foldM]; [discriminate|].
  destruct (f a b) as [x|e|] eqn:E; cbn [bind]; [|discriminate|exfalso; exact (H b a (or_introl eq_refl) E)].
  apply IH. intros; apply H; simpl; auto.
Qed.
Section Calm.
  Variable w : outside.
  Variable h : hydratable.
  Hypothesis FT : faithful_tree (o_tree w).
  Hypothesis SC : forall i c, In i (map snd (hInstances h)) -> In c (iContexts i) -> sound_context c.
  Hypothesis ND : forall i hrefs, In i (map snd (hInstances h)) -> ~ dangling (concept_for w h) i hrefs.

  Lemma contexts_calm lbl order entity insts hrefs : visited (hInstances h) insts ->
    exists cols seg scen cp, get_relevant_contexts (o_tree w) lbl (concept_for w h) order entity insts hrefs = Ok (cols, seg, scen, cp) /\
      (forall r, In r seg -> headed r) /\ (forall r, In r scen -> headed r).
  Proof.
    intro V. assert (VI : forall i, In i insts -> In i (map snd (hInstances h))) by (intros i Hi; eapply Permutation_in; [exact V|exact Hi]).
    destruct (relevant_spec (o_tree w) lbl (concept_for w h) order entity insts hrefs) as [[(i&Hi&D) _]|[_ (css&F&->)]].
    { exfalso. exact (ND i hrefs (VI i Hi) D). }
    assert (K : forall c, In c (concat css) -> sound_context c).
    { intros c Hc. apply in_concat in Hc as (cs&Hcs&Hc). destruct (Forall2_In_r _ _ _ _ F Hcs) as (i&Hi&_&R).
      destruct (proj1 (R c) Hc) as (f&_&_&_&RT&_). apply first_such_In in RT as [Hc' _]. exact (SC i c (VI i Hi) Hc'). }
    do 4 eexists. split; [reflexivity|]. split; intros r Hr; apply in_flat_map in Hr as (c&Hc&Hr); cbn in Hr; apply in_map_iff in Hr as (t&<-&Ht);
      apply typed_tree_headed; auto; destruct (K c Hc); auto.
  Qed.
  Lemma p_calm entity role p : p_grids w h entity role p -> calm p.
  Proof.
    intros (lbl&g&lbs&_&G&_&->). unfold p_grid_of. destruct (get_indented_labels _ _ _ _) as [labels packs].
    destruct (contexts_calm lbl (ge_typed_order g) entity (ge_instances g) (map ilHref labels) (gf_instances _ _ _ G)) as (cols&seg&scen&cp&->&H1&H2). cbn [bind].
    destruct (ge_destruct _ _) as [rs ls].
    match goal with |- context [get_factual_quadrant ?a ?b ?c ?d ?e ?f ?g] => destruct (quadrant_total a b c d e f g) as ([[f0 g0] n]&->) end. cbn [bind].
    destruct (get_member_grid _ _ _ _) as [[m0 v]|e|] eqn:M; cbn [bind]; [discriminate|discriminate|].
    intros _. exact (member_grid_ok _ _ _ _ H1 H2 M).
  Qed.
  Lemma c_calm entity role c : c_grids w h entity role c -> calm c.
  Proof.
    intros (lbl&genv&order&lbs&_&G&_&_&->). unfold get_summation_items. destruct (calc_link role [] lbs) as [[lb k]|]; [|discriminate].
    cbv zeta. destruct (foldM _ _ _) as [st|e|] eqn:E; cbn [bind]; [discriminate|discriminate|]. intros _. revert E. apply foldM_calm.
    intros [from slice] a _. unfold c_source. cbv zeta.
    match goal with |- context [get_relevant_contexts _ ?b _ ?d ?e _ ?g] => destruct (contexts_calm b d e _ g (gf_instances _ _ _ (G from))) as (cols&seg&scen&cp&->&H1&H2) end. cbn [bind].
    destruct (ge_destruct _ _) as [rs ls].
    match goal with |- context [get_factual_quadrant ?a ?b ?c ?d ?e ?f ?g] => destruct (quadrant_total a b c d e f g) as ([[f0 g0] n]&->) end. cbn [bind].
    destruct (concept_for w h from); [|discriminate].
    destruct (get_member_grid _ _ _ _) as [[m0 v]|e|] eqn:M; cbn [bind]; [discriminate|discriminate|].
    intros _. exact (member_grid_ok _ _ _ _ H1 H2 M).
  Qed.
  Lemma d_calm entity role d : d_grids w h entity role d -> calm d.
  Proof.
    intros (lbl&genv&dims_order&order&lbs&lbs'&_&G&_&_&_&_&->). unfold d_grid_of, get_root_domains.
    destruct (foldM _ _ _) as [st|e|] eqn:E; cbn [bind]; [discriminate|discriminate|]. intros _. revert E. apply foldM_calm.
    intros lb a _. apply foldM_calm. clear a. intros k a _. unfold d_link. destruct (ge_destruct _ _) as [r0 l0].
    destruct (link_networks _ _) as [pr nw]. apply foldM_calm. clear a. intros root a _. unfold d_root.
    destruct (get_effective_domain_grid _ _ _ _ _) as [ed el]. cbv zeta.
    match goal with |- context [get_relevant_contexts _ ?b _ ?d ?e (ge_instances (genv ?n)) ?g] => destruct (contexts_calm b d e _ g (gf_instances _ _ _ (G n))) as (cols&seg&scen&cp&->&H1&H2) end. cbn [bind].
    destruct (get_member_grid _ _ _ _) as [[m0 v]|e|] eqn:M; cbn [bind]; [|discriminate|intros _; exact (member_grid_ok _ _ _ _ H1 H2 M)].
    destruct (ge_destruct _ _) as [rs ls].
    match goal with |- context [get_factual_quadrant ?a ?b ?c ?d ?e ?f ?g] => destruct (quadrant_total a b c d e f g) as ([[f0 g0] n]&->) end. cbn [bind].
    discriminate.
  Qed.
  Lemma never_crashed slug : ~ crashed_renderable w h slug.
  Proof.
    intros [insts schemas e r p d c _ _ _ P D C X].
    destruct X as [X|[X|X]]; subst; [exact (p_calm _ _ _ P eq_refl)|exact (d_calm _ _ _ D eq_refl)|exact (c_calm _ _ _ C eq_refl)].
  Qed.
  Lemma renderable_calm slug out : o_names w <> Panic -> marshalled_renderable w h slug out -> calm out.
  Proof.
    intros NN [o M|X]; [|now apply never_crashed in X].
    destruct M as [insts schemas _ _ _|insts schemas e r p d c conf VI VS FS P D C NP ND' NC _ _].
    - discriminate.
    - unfold marshal_renderable. rewrite FS. unfold renderable_bytes, entity_query. destruct (o_names w) as [ns|m|]; [|discriminate|congruence].
      cbn [bind]. destruct (sget (eScheme e) ns) as [x|]; [destruct (sget (eChar e) x)|]; discriminate.
  Qed.
End Calm.

(** C130: of every report that can be loaded, whatever network a client asks for and whatever the
    orders and schedules: if every fact refers to a context of the instance, displaying the
    network ends with the network or with an error; no goroutine panics, so the server goes on. *)
Theorem C130_partial :
  forall d dir name images pf sh tokens utr h, supported name -> loaded d dir name images pf sh tokens utr h ->
  exists file root, entry_at d dir root name file /\
    (well_written d dir root ->
     exists facts contexts q, understands d dir root q /\ facts_written d dir root facts /\
       contexts_written root q (content_of q tokens (attributes root)) contexts /\
       ((forall fa k, In fa facts -> reports d dir root fa k -> cAbstract k = false -> exists c, In c contexts /\ ctxID c = fContextRef fa) ->
        forall w slug, o_url w = d_url d -> o_schema w = global_schema_file d -> faithful_tree (o_tree w) ->
          ~ crashed_renderable w h slug /\
          (o_names w <> Panic -> forall out, marshalled_renderable w h slug out -> out <> Panic))).
Proof.
  intros d dir name images pf sh tokens utr h N L.
  destruct (loaded_parts _ _ _ _ _ _ _ _ _ N L) as (file&root&fd&doc&EA&FI&S&_&CL&AC&M1&M2&_&_&_&H).
  apply C79_complete in H as (HF&_&_&_&_&_&HI&_).
  destruct (one_loaded _ _ _ HI _ _ FI) as (i&HI'&E).
  exists file, root. split; auto. intros (P&ID&O&NH&DR&PT).
  assert (D : decode_instance (Some root) = Ok (instance_struct root)).
  { destruct EA as (_&(data&_&_&T)&_). unfold decode_instance, decode. apply has_tag_iff in T. now rewrite T. }
  set (q := env_of fd (d_url d) (global_schema_file d)) in *.
  assert (QOK : qenv_ok q) by (split; auto).
  assert (FW : facts_written d dir root (iFacts i)).
  { destruct (C115_facts_partial _ _ _ _ _ _ _ _ _ N L) as (file'&root'&i'&EA'&HI2&F).
    rewrite HI' in HI2. injection HI2 as <- <-.
    assert (root' = root) as ->.
    { destruct EA as (_&DO&_), EA' as (_&DO'&_). eapply document_fun; eauto. }
    exact (F P O). }
  exists (iFacts i), (iContexts i), q. split; [|split; [exact FW|split]].
  { split; intros; [eapply names_declared; eauto|eapply declared_names; eauto]. }
  { eapply C104_contexts_partial; eauto. }
  intros RF w slug OU OS FT.
  assert (HC : forall fa, In fa (iFacts i) -> exists k, reports d dir root fa k).
  { intros fa Hfa. destruct FW as (fs&I&ST).
    assert (Hf : In fa fs) by (destruct ST as (PM&_); eapply Permutation_in; [|exact Hfa]; auto using Permutation_sym).
    apply (image_of_In _ _ _ _ I) in Hf as (x&Hx&FA&_). pose proof FA as (ns&l&Nx&_&_&(k&DK)&_).
    exists k, x, ns, l. auto. }
  assert (IC : forall fa k, reports d dir root fa k -> concept_for w h (fHref fa) = Some k).
  { intros fa k (x&ns&l&Hx&_&Nx&DK). unfold concept_for. rewrite HF, OU, OS.
    edestruct (declared_found d dir root fd S CL AC P ID QOK (fdNamespaces fd)) as (k'&->); eauto. }
  assert (X1 : forall i' c, In i' (map snd (hInstances h)) -> In c (iContexts i') -> sound_context c).
  { rewrite HI'. intros i' c [<-|[]]. eapply instance_sound; eauto. }
  assert (X2 : forall i' hrefs, In i' (map snd (hInstances h)) -> ~ dangling (concept_for w h) i' hrefs).
  { rewrite HI'. intros i' hrefs [<-|[]] (f&Hf&_&(k&Hk&NA)&NO). destruct (HC f Hf) as (k'&R). rewrite (IC f k' R) in Hk. injection Hk as <-.
    destruct (RF f k' Hf R NA) as (c&Hc&EC). exact (NO c Hc EC). }
  split; [exact (never_crashed w h FT X1 X2 slug)|]. intros ON out M. exact (renderable_calm w h FT X1 X2 slug out ON M).
Qed.
Print Assumptions C130_partial.

(** ** A fact without its context *)

(** *** The folder of C125 again, except that the second fact refers to a context that is not there *)
Definition lost_fact : tree := XmlElem (XName "urn:a" "A") [pa "id" "f2"; pa "contextRef" "d"] "two" [txt "two"].
Definition stray_root : tree :=
  xbrl_doc [schema_ref_to "a.xsd"; a_context; fact_saying "urn:a" "A" "f1" "one"; lost_fact].
Definition stray_disk : disk := small_disk [(in_dir "x.xml", stray_root); (in_dir "a.xsd", pair_schema); (in_dir "pre.xml", pair_links)].
Definition stray_end : state := go_on (files_of stray_disk) small_dir 20
  (schema_ref (files_of stray_disk) small_dir (first_folder (files_of stray_disk) small_dir "x.xml") (instance_struct stray_root)).
Definition stray_folder : folder := DiscoverModel.finish "x.xml" (instance_struct stray_root) (fst stray_end).
Definition stray_loads := hydrate ex_pf plain_order (d_url stray_disk) (global_schema_file stray_disk) ex_tokens (Ok []) (Ok None) stray_folder.
Definition stray_report : hydratable := match stray_loads with Ok h => h | _ => Hydratable stray_folder [] None [] [] [] [] [] [] end.

Definition stray_outside : outside :=
  Outside (d_url stray_disk) (global_schema_file stray_disk) (Ok []) (Ok []) sample_tree (fun _ => []) (fun _ _ _ => None) (fun _ => None) (fun _ => "") (fun _ => None).
Lemma stray_entry : entry_at stray_disk small_dir stray_root "x.xml" "x.xml".
Proof. apply small_entry_at; [reflexivity|do 4 eexists; reflexivity]. Qed.
Lemma stray_loaded : loaded stray_disk small_dir "x.xml" false ex_pf plain_order ex_tokens (Ok []) stray_report.
Proof.
  exists stray_folder, (Ok None). split; [|split; [vm_compute; constructor|vm_compute; reflexivity]].
  assert (EI : entry_instance (files_of stray_disk) small_dir "x.xml" "x.xml" (instance_struct stray_root)) by (apply entry_iff; eauto using stray_entry).
  apply (discover_iff _ _ _ _ _ _ _ EI). exists stray_end. split; [apply go_on_runs; constructor|]. split; [vm_compute; repeat constructor|reflexivity].
Qed.
Lemma stray_followed x t : followed_at stray_disk small_dir stray_root x t -> x = "a.xsd" /\ t = pair_schema.
Proof.
  intro F. assert (T : t = pair_schema).
  { apply followed_at_local in F as [_ L]. apply small_document in L as [[E|[E|[E|[]]]] N]; injection E as _ <-; auto; destruct N as (?&?&?&?&N); discriminate N. }
  split; auto. clear T. destruct F as [h t ns R _ _|h0 g h t ns G R _ _|h0 g h t ns G R _].
  - destruct R as (y&Hy&(?&?&?&Ny)&Q). simpl in Hy. repeat destruct Hy as [<-|Hy]; try contradiction; try discriminate Ny.
    apply LinkbaseProofs.req_iff in Q. now injection Q.
  - exfalso. apply followed_at_local in G as [_ L]. apply small_document in L as [[E|[E|[E|[]]]] N]; injection E as _ <-; try (destruct N as (?&?&?&?&N); discriminate N).
    destruct R as (y&Hy&(?&?&?&Ny)&Q). simpl in Hy. repeat destruct Hy as [<-|Hy]; try contradiction; discriminate Ny.
  - exfalso. apply followed_at_local in G as [_ L]. apply small_document in L as [[E|[E|[E|[]]]] N]; injection E as _ <-; try (destruct N as (?&?&?&?&N); discriminate N).
    destruct R as (y&Hy&(?&?&?&Ny)&Q). simpl in Hy. repeat destruct Hy as [<-|Hy]; try contradiction; discriminate Ny.
Qed.
Lemma stray_known x t : known stray_disk small_dir stray_root x t -> x = "a.xsd" /\ t = pair_schema.
Proof. intros [F|(_&data&K&_)]; [now apply stray_followed in F|discriminate K]. Qed.
Lemma stray_claims ns x : claims_at stray_disk small_dir stray_root ns x -> x = "a.xsd".
Proof.
  intros [h t n R L T|h0 g h t n G R L T|h0 g h n G R].
  - apply (stray_followed h t). eapply fat_ref; eauto.
  - apply (stray_followed h t). eapply fat_include; eauto.
  - exfalso. apply stray_followed in G as [_ ->].
    destruct R as (y&Hy&(?&?&?&Ny)&Q). simpl in Hy. repeat destruct Hy as [<-|Hy]; try contradiction; discriminate Ny.
Qed.
Lemma stray_written : well_written stray_disk small_dir stray_root.
Proof.
  split; [|split; [|split; [|split; [|split]]]].
  - intros x t K. apply stray_known in K as [_ ->]. apply pair_plain.
  - intros x t cs K I. apply stray_known in K as [-> ->]. apply pair_image in I. subst cs. split.
    + apply has_char_false_iff. reflexivity.
    + repeat constructor; simpl; intuition discriminate.
  - intros x ns l _ _ h h' C C'. apply stray_claims in C, C'. congruence.
  - prove_names.
  - prove_decls.
  - prove_texts.
Qed.

(** *** Whatever the orders and schedules, displaying its network is a crash *)
Lemma only_one {A} (m : list (string * A)) k x l : m = [(k, x)] -> visited m l -> l = [x].
Proof. unfold visited. intros -> P. now apply Permutation_sym, Permutation_length_1_inv in P. Qed.
Lemma stray_parts : exists i s p, hInstances stray_report = [("x.xml", i)] /\ hSchemas stray_report = [("a.xsd", s)] /\
  hPresentation stray_report = [("pre.xml", p)] /\
  find_slug pair_slug (sorted_entities [i]) (sorted_relationship_sets [s]) = Some (pair_entity, pair_set) /\
  (forall lbl, map ilHref (fst (get_indented_labels sample_tree lbl (rsRole pair_set) [p])) = ["a.xsd#id_R"; "a.xsd#id_A"]) /\
  In (Fact "a.xsd#id_A" "f2" "d" "" (-2147483647) false "two") (iFacts i) /\
  (forall c, In c (iContexts i) -> ctxID c = "c") /\ concept_for stray_outside stray_report "a.xsd#id_A" = Some (pair_concept "A").
Proof.
  do 3 eexists. split; [vm_compute; reflexivity|]. split; [vm_compute; reflexivity|]. split; [vm_compute; reflexivity|].
  split; [vm_compute; reflexivity|]. split; [intro; vm_compute; reflexivity|]. split; [vm_compute; auto|].
  split; [|vm_compute; reflexivity]. intros x Hx. vm_compute in Hx. destruct Hx as [<-|[]]. reflexivity.
Qed.
Lemma stray_crashes out : ~ returned_renderable stray_outside stray_report pair_slug out.
Proof.
  destruct stray_parts as (i&s&lb&EI&ES&EP&FS'&HR&HF&HC&CO).
  intro M. destruct M as [insts schemas VI VS FS|insts schemas e r p d c conf VI VS FS P D C NP ND NC _ _].
  - rewrite (only_one _ _ _ _ EI VI), (only_one _ _ _ _ ES VS), FS' in FS. discriminate.
  - apply NP. clear NP.
    rewrite (only_one _ _ _ _ EI VI), (only_one _ _ _ _ ES VS), FS' in FS. injection FS as <- <-.
    destruct P as (lbl&g&lbs&_&G&V&->). rewrite (only_one _ _ _ _ EP V). unfold p_grid_of. specialize (HR lbl).
    change (o_tree stray_outside) with sample_tree in *. destruct (get_indented_labels _ _ _ _) as [labels packs]. cbn [fst] in HR.
    rewrite HR, (only_one _ _ _ _ EI (gf_instances _ _ _ G)).
    edestruct C21_crash_iff_dangling_partial as [[_ K] _]. rewrite K; [reflexivity|].
    exists i. split; [left; reflexivity|]. exists (Fact "a.xsd#id_A" "f2" "d" "" (-2147483647) false "two").
    split; [exact HF|]. split; [right; left; reflexivity|]. split; [exists (pair_concept "A"); auto|].
    intros x Hx. rewrite (HC x Hx). discriminate.
Qed.
Lemma stray_dies : crashed_renderable stray_outside stray_report pair_slug.
Proof. destruct (C125_answered stray_outside stray_report pair_slug) as [out [o M|X]]; auto. now apply stray_crashes in M. Qed.
(** Refuted: a fact whose context is missing. Every request for the network of its concept ends the
    process, in every order and schedule. *)
Theorem C130_refuted :
  exists d dir name images pf sh tokens utr h root w slug, supported name /\ loaded d dir name images pf sh tokens utr h /\
    (exists file, entry_at d dir root name file) /\ well_written d dir root /\
    o_url w = d_url d /\ o_schema w = global_schema_file d /\ faithful_tree (o_tree w) /\ o_names w <> Panic /\
    crashed_renderable w h slug /\ forall out, ~ returned_renderable w h slug out.
Proof.
  exists stray_disk, small_dir, "x.xml", false, ex_pf, plain_order, ex_tokens, (Ok []), stray_report, stray_root, stray_outside, pair_slug.
  split; [exact x_supported|]. split; [exact stray_loaded|]. split; [eexists; exact stray_entry|]. split; [exact stray_written|].
  split; [reflexivity|]. split; [reflexivity|]. split; [exact sample_tree_faithful|]. split; [discriminate|].
  split; [exact stray_dies|exact stray_crashes].
Qed.
Print Assumptions C130_refuted.

(** The hypotheses of C130 are met: the folder of C125, where both facts have their context. *)
Example C130_example :
  loaded pair_disk small_dir "x.xml" false ex_pf plain_order ex_tokens (Ok []) pair_report /\ well_written pair_disk small_dir pair_root /\
  (exists i, hInstances pair_report = [("x.xml", i)] /\ length (iFacts i) = 2 /\
     forall fa, In fa (iFacts i) -> exists c, In c (iContexts i) /\ ctxID c = fContextRef fa) /\
  o_url pair_outside = d_url pair_disk /\ o_schema pair_outside = global_schema_file pair_disk /\
  faithful_tree (o_tree pair_outside) /\ o_names pair_outside <> Panic /\
  exists bytes, marshalled_renderable pair_outside pair_report pair_slug (Ok (Some bytes)).
Proof.
  split; [exact pair_loaded|]. split; [exact pair_written|]. split.
  { eexists. split; [vm_compute; reflexivity|]. split; [reflexivity|]. intros fa Hfa. cbn [iFacts] in Hfa. cbn [iContexts].
    destruct Hfa as [<-|[<-|[]]]; (eexists; split; [left; reflexivity|reflexivity]). }
  split; [reflexivity|]. split; [reflexivity|]. split; [exact sample_tree_faithful|]. split; [discriminate|exact pair_served].
Qed.
