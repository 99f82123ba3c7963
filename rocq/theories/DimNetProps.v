(** * DimNetProps: C136 (from the definition linkbases of a report on disk to the definition grid a client reads) *)
From Verif Require Import GoBase GoSpec GoFacts AttrModel AttrSpec AttrProofs SchemaModel SchemaSpec SchemaProofs SchemaProps
  LinkbaseModel LinkbaseSpec LinkbaseProofs LinkbaseProps InstanceModel InstanceSpec InstanceProofs InstanceProps
  HydrateModel HydrateSpec HydrateProofs HydrateProps LabelModel LabelSpec LabelProofs LabelProps PeriodModel PeriodSpec PeriodProofs PeriodProps
  FactModel FactSpec FactProofs FactProps GridModel GridSpec GridProofs GridProps CalcModel CalcSpec CalcProofs CalcProps DefModel DefSpec DefProofs DefProps
  RenderModel RenderSpec RenderProofs RenderProps
  DiscoverModel DiscoverSpec DiscoverProofs DiscoverProps XmlModel XmlSpec XmlProofs XmlProps LoadModel LoadSpec LoadProofs LoadProps
  CatalogModel CatalogSpec CatalogProofs CatalogProps ReportModel ResponseModel ResponseSpec ResponseProofs ResponseProps EndToEndSpec EndToEndProps ReportSpec ReportProofs ReportProps NetworkSpec NetworkProps DimNetSpec.
Local Open Scope string_scope.

(** ** What has been read *)

(** no element of another namespace is named like those of a definition linkbase *)
Definition plain_definitions (d : disk) (dir : string) (root : tree) : Prop :=
  forall x t, linkbase_at d dir root Definitional x t -> own_links t "definitionLink" ["loc"; "definitionArc"].
Lemma definitions_once d dir name images pf sh tokens utr h : supported name -> loaded d dir name images pf sh tokens utr h ->
  NoDup (map fst (hDefinition h)).
Proof.
  intros N (fd&doc&D&HD&H). destruct (C102_instance_partial _ _ _ _ _ N D) as (file&i&EI&_).
  destruct (outcome_exact _ _ _ _ _ _ _ EI D) as (_&_&_&_&_&_&M). specialize (M Definitional). cbn [holds_linkbases] in M.
  apply C79_complete in H as (_&_&_&[K _]&_). unfold is_map in M. now rewrite K.
Qed.
Definition written_in (d : disk) (dir : string) (root : tree) (pf : string -> f64 * bool) (e : string * linkbase darc) (x : string * tree) : Prop :=
  fst x = fst e /\ linkbase_at d dir root Definitional (fst x) (snd x) /\
  links_as_written "definitionLink" "definitionArc" (is_definition_arc pf) (snd x) (snd e).
Lemma definitions_read d dir name images pf sh tokens utr h : orders sh -> supported name -> loaded d dir name images pf sh tokens utr h ->
  exists file root, entry_at d dir root name file /\ (plain_definitions d dir root ->
    forall l, Permutation l (map snd (hDefinition h)) ->
    exists entries docs, l = map snd entries /\ Forall2 (written_in d dir root pf) entries docs /\ definition_books d dir root docs).
Proof.
  intros O N L. destruct (C116_networks_partial _ _ _ _ _ _ _ _ _ O N L) as (file&root&EA&_&HD&_).
  destruct (C114_documents _ _ _ _ _ _ _ _ _ N L) as (file'&root'&EA'&_&_&K).
  assert (root' = root) as -> by (eapply entry_root; eauto).
  exists file, root. split; auto. intros PD l P.
  apply Permutation_map_inv in P as (entries&->&P).
  assert (F : forall es, (forall e, In e es -> In e (hDefinition h)) -> exists docs, Forall2 (written_in d dir root pf) es docs).
  { induction es as [|[x lb] es IH]; intro I; [exists []; constructor|].
    destruct (HD x lb (I _ (or_introl eq_refl))) as (t&T&W). destruct IH as (docs&F); [intros; apply I; now right|].
    exists ((x, t) :: docs). constructor; auto. split; auto. split; auto. apply W. eapply PD; eauto. }
  destruct (F entries) as (docs&FD). { intros e I. eapply Permutation_in; [apply Permutation_sym; exact P|exact I]. }
  exists entries, docs. split; auto. split; auto.
  assert (KE : map fst docs = map fst entries).
  { clear -FD. induction FD as [|e x es xs (E&_) _ IH]; cbn [map]; congruence. }
  assert (TA : forall x t, In (x, t) docs -> linkbase_at d dir root Definitional x t).
  { intros x t. clear -FD. induction FD as [|e y es ys (_&T&_) _ IH]; [intros []|]. intros [->|I]; auto. }
  split.
  - rewrite KE. eapply Permutation_NoDup; [apply Permutation_map; exact P|]. exact (definitions_once _ _ _ _ _ _ _ _ _ N L).
  - intros x t. split.
    + intro I. exact (TA _ _ I).
    + intro T. assert (I : In x (map fst docs)).
      { rewrite KE. eapply Permutation_in; [apply Permutation_map; exact P|]. apply (K Definitional). eauto. }
      apply in_map_iff in I as ([x' t']&<-&I). cbn [fst] in *.
      assert (T' := TA _ _ I). now rewrite (linkbase_fun _ _ _ _ _ _ _ T T').
Qed.

(** ** The drawings of a network *)
Definition drawn (pf : string -> f64 * bool) (role : string) (n : drawing) (x : linkbase darc * link darc) : Prop :=
  let '(t, locs, arcs) := n in
  links_as_written "definitionLink" "definitionArc" (is_definition_arc pf) t (fst x) /\ has_network role (fst x) /\
  In (snd x) (lbLinks (fst x)) /\ lRole (snd x) = role /\ locs = lLocs (snd x) /\ arcs = lArcs (snd x).
Lemma those_one {A} (f : A -> string) r (l ks : list A) : NoDup (map f l) -> those (fun k => f k = r) l ks -> ks = [] \/ exists k, ks = [k].
Proof.
  intros N T. induction T as [|x l l' E T IH|x l l' E T IH]; auto.
  - right. exists x. f_equal. cbn in N. inversion N as [|? ? NI ND]; subst.
    assert (G : forall y, In y l' -> False).
    { intros y Hy. apply NI. apply in_map_iff. exists y. split; [|eapply those_In; eauto]. clear -T Hy. induction T as [|z l l' E T IH|z l l' E T IH]; [destruct Hy| |auto]. destruct Hy as [<-|Hy]; auto. }
    destruct l' as [|y l']; auto. elim (G y); now left.
  - apply IH. cbn in N. now inversion N.
Qed.
Lemma drawings_of d dir root pf role entries docs l : Forall2 (written_in d dir root pf) entries docs -> network_links role (map snd entries) l ->
  exists ns, image_of (draws pf role) docs ns /\ Forall2 (drawn pf role) ns l.
Proof.
  intros F (kss&FK&->). revert kss FK. induction F as [|[x lb] [x' t] es ds (E&T&W) F IH]; intros kss FK.
  - inversion FK. exists []. split; constructor.
  - cbn [map snd fst] in *. inversion FK as [|? ks ? kss' LI FK']; subst. destruct (IH _ FK') as (ns&I&FN).
    pose proof W as (_&links&_&ND&_).
    assert (NH : (ks = [] \/ ~ declares lb role) -> links_in role lb ks -> ~ has_network role lb).
    { intros X [[D TH]|[D ->]] [(rr&Hr&Er) (k&Hk&Ek)].
      - destruct X as [->|X]; [|contradiction]. clear -TH Hk Ek. remember [] as e eqn:Ee. induction TH as [|z l l' E T IH|z l l' E T IH]; [destruct Hk|discriminate|].
        destruct Hk as [->|Hk]; auto.
      - apply D. rewrite <- Er. now apply in_map. }
    pose proof LI as [[D TH]|[D ->]].
    + destruct (those_one lRole role _ _ ND TH) as [->|(k&->)].
      * exists ns. split; auto. apply image_skip; auto. intros [[t' locs] arcs] (->&DF&_). cbn [snd] in DF.
        apply (NH (or_introl eq_refl) LI). exact (declared_network _ _ _ _ _ W _ DF).
      * assert (Hk : In k (lbLinks lb) /\ lRole k = role).
        { clear -TH. remember [k] as e eqn:Ee. induction TH as [|z l l' E T IH|z l l' E T IH]; [discriminate| |].
          - injection Ee as -> ->. simpl. auto.
          - destruct (IH Ee). simpl. auto. }
        destruct Hk as [Hk Rk].
        assert (HN : has_network role lb).
        { split; [apply in_map_iff in D as (rr&Er&Hr)|]; eauto. }
        exists ((t, lLocs k, lArcs k) :: ns). split.
        { apply image_keep; auto. split; auto. split; [exact (network_declared _ _ _ _ _ W _ HN)|exact (network_read _ _ _ _ _ W _ _ Hk Rk)]. }
        cbn [combine map concat fst snd app]. constructor; auto. cbn. auto 10.
    + exists ns. split; auto. apply image_skip; auto. intros [[t' locs] arcs] (->&DF&_). cbn [snd] in DF.
      apply (NH (or_intror D) LI). exact (declared_network _ _ _ _ _ W _ DF).
Qed.

(** ** Locators *)
Lemma locates_finds_at pf t lb role label href : links_as_written "definitionLink" "definitionArc" (is_definition_arc pf) t lb ->
  locates lb role label href -> finds_at pf t role label href.
Proof.
  intros W L. pose proof W as (RR&links&I&ND&R&LK).
  assert (DR : declares lb role <-> refers_to_role t role).
  { split.
    - intro D. apply in_map_iff in D as (rr&Er&Hr). apply (image_of_In _ _ _ _ RR) in Hr as (x&Hx&Rx). exists x, rr. auto.
    - intros (x&rr&Hx&Rx&Er). destruct (image_In_r _ _ _ _ RR Hx (ex_intro _ rr Rx)) as (rr'&Hr&Rr).
      destruct Rx as (?&?&?&->&R1), Rr as (?&?&?&E&R2). injection E as <- <- <-. unfold declares. rewrite <- Er.
      assert (rrRoleURI rr = rrRoleURI rr') as -> by (eapply required_fun; [apply R1|apply R2]). now apply in_map. }
  assert (N : exists arcs, definition_in pf t role (role_locators role lb) arcs).
  { destruct (filter (fun k => if string_dec (lRole k) role then true else false) (lbLinks lb)) as [|k ks] eqn:F.
    - exists []. exists links, []. split; auto. unfold role_locators. rewrite F. cbn. split; auto.
      assert (G : forall l, In l links -> lRole l <> role).
      { intros l Hl E. assert (H : In role (map lRole (lbLinks lb))) by (apply R; rewrite <- E; now apply in_map).
        apply in_map_iff in H as (k&Ek&Hk). assert (X : In k []) by (rewrite <- F; apply filter_In; split; [exact Hk|]; rewrite Ek; now destruct (string_dec role role)). destruct X. }
      clear -G. induction links as [|l links IH]; constructor; [apply G; now left|apply IH; intros; apply G; now right].
    - assert (Hk : In k (lbLinks lb) /\ (if string_dec (lRole k) role then true else false) = true) 
        by (apply (filter_In (fun k => if string_dec (lRole k) role then true else false)); rewrite F; now left).
      destruct Hk as [Hk Ek]. destruct (string_dec (lRole k) role) as [Ek'|]; [clear Ek; rename Ek' into Ek|discriminate]. exists (lArcs k).
      assert (E : role_locators role lb = lLocs k).
      { unfold role_locators. rewrite <- Ek. rewrite (filter_one lRole (lbLinks lb) k ND Hk). cbn [flat_map]. now rewrite app_nil_r. }
      rewrite E. exact (network_read _ _ _ _ _ W _ _ Hk Ek). }
  destruct N as (arcs&N). destruct L as [[D F]|[[D|F] ->]].
  - left. split; [now apply DR|]. exists (role_locators role lb), arcs. split; auto. now left.
  - right. split; auto. now rewrite <- DR.
  - destruct (in_dec string_dec role (map rrRoleURI (lbRoleRefs lb))) as [D|D].
    + left. split; [now apply DR|]. exists (role_locators role lb), arcs. split; auto. right. auto.
    + right. split; auto. now rewrite <- DR.
Qed.

Lemma d_parts w h entity role d dg roles langs : d_grids w h entity role d -> d = Ok (dg, roles, langs) ->
  exists lbl genv dims_order order lbs lbs' rs ls, labels_from h lbl /\ (forall l, Permutation (order l) l) /\
    (forall lb k, visited (hDefinition h) (dims_order lb k)) /\
    visited (hDefinition h) lbs /\ visited (hDefinition h) lbs' /\
    get_root_domains (o_tree w) lbl (concept_for w h) genv dims_order entity role lbs = Ok (dgRootDomains dg, rs, ls) /\
    dgDRS dg = get_drs (o_order w) lbl role order lbs'.
Proof.
  intros (lbl&genv&dims&order&lbs&lbs'&L&_&VD&PO&V&V'&->). unfold d_grid_of.
  destruct (get_root_domains _ _ _ _ _ _ _ _) as [[[rds rs] ls]| |] eqn:G; cbn [bind]; try discriminate.
  intros [= <- <- <-]. exists lbl, genv, dims, order, lbs, lbs', rs, ls. auto 10.
Qed.
Lemma lacks_of fields v k : object fields v -> ~ In k (map fst fields) -> lacks v k.
Proof.
  intros (ms&->&F) N y P. inversion P as [| |l k' x p u I P']; subst. apply N.
  assert (E : map fst ms = map fst fields) by (clear -F; induction F as [|f m fs ms (E&_) _ IH]; cbn [map]; congruence).
  rewrite <- E. now apply (in_map fst) in I.
Qed.
(** what the answer contains, whatever the grid *)
Lemma definition_member w h slug bytes : marshalled_renderable w h slug (Ok (Some bytes)) ->
  exists e r v dg rs ls langs, is_slug e r slug /\ reads_as bytes v /\ has v "RelationshipSet" (relationship_set r) /\
    d_grids w h (stringify e) (rsRole r) (Ok (dg, rs, ls)) /\ the_member v "DGrid" (d_grid_value (format_d (o_spanish w) langs dg)).
Proof.
  intro M. destruct (done_parts _ _ _ _ M) as (insts&schemas&e&r&p&d&c&conf&nm&VI&VS&FS&_&DG&_&_&ND&_&->).
  destruct (rendered (o_spanish w) p d c conf) as [[g roles] langs] eqn:ER.
  destruct (C119_renderable (linked (rsRole r) (map snd (hCalculation h))) r (Subject nm e) g roles langs) as (v&J&V).
  unfold rendered in ER. injection ER as EG _ EL. apply first_such_In in FS as [_ SL]. cbn [fst snd] in SL.
  destruct d as [[[dg rs] ls]|m|]; [|exfalso; exact (d_no_error _ _ _ _ _ DG m eq_refl)|congruence].
  exists e, r, v, dg, rs, ls. eexists. split; auto. split; auto. split.
  { apply the_member_has. eapply (the_member_of _ _ "RelationshipSet"); [exact V|fields|left; reflexivity]. }
  split; auto. rewrite <- EG in V. cbn [gdD grid_or] in V.
  eapply (the_member_of _ _ "DGrid"); [exact V|fields|do 5 right; left; reflexivity].
Qed.

(** C136: the links of the definition grid are the arcs of all the definition linkbases that have the
    network, each with the two concepts it connects and what its arcrole says; the nodes are
    the concepts so connected, each once, with their labels. *)
Theorem C136_links_partial :
  forall d dir name images pf sh tokens utr h, orders sh -> supported name -> loaded d dir name images pf sh tokens utr h ->
  exists file root, entry_at d dir root name file /\
    (plain_books d dir root -> plain_definitions d dir root ->
     forall w slug bytes, marshalled_renderable w h slug (Ok (Some bytes)) ->
       exists e r v, is_slug e r slug /\ reads_as bytes v /\ has v "RelationshipSet" (relationship_set r) /\
         the_member v "DGrid" (fun u => the_member u "DRS" (links_shown d dir root pf (o_order w) (rsRole r)))).
Proof.
  intros d dir name images pf sh tokens utr h O N L.
  destruct (books_read _ _ _ _ _ _ _ _ _ O N L) as (file&root&EA&BR).
  destruct (definitions_read _ _ _ _ _ _ _ _ _ O N L) as (file'&root'&EA'&DR).
  assert (root' = root) as -> by (eapply entry_root; eauto).
  exists file, root. split; auto. intros PB PD w slug bytes M. destruct (BR PB) as (_&_&RL).
  destruct (definition_member _ _ _ _ M) as (e&r&v&dg&rs&ls&langs&SL&J&RS&DG&V). exists e, r, v. split; auto. split; auto. split; auto.
  eapply the_member_impl; [|exact V]. intros u U.
  eapply the_member_impl; [|eapply (the_member_of _ _ "DRS"); [exact U|fields|right; left; reflexivity]]. intros y Y.
  destruct (d_parts _ _ _ _ _ _ _ _ DG eq_refl) as (lbl&genv&dims&order&lbs&lbs'&rs'&ls'&LF&PO&_&_&VL&_&ED).
  cbn [format_d dgDRS] in Y. rewrite ED in Y. set (drs := get_drs _ _ _ _ _) in *.
  destruct (DR PD _ VL) as (entries&docs&EL&FW&DB). subst lbs'.
  pose proof (net_links_network (rsRole r) (map snd entries)) as NL. pose proof (C28_links (o_order w) lbl (rsRole r) order _ _ NL) as CL. fold drs in CL.
  destruct (drawings_of _ _ _ _ _ _ _ _ FW NL) as (ns&IM&FD).
  destruct (C28_nodes (o_order w) lbl (rsRole r) order (map snd entries) PO) as (N1&N2&N3). fold drs in N1, N2, N3.
  set (arcs := flat_map (fun n : drawing => map (pair n) (snd n)) ns).
  assert (FA : Forall2 (fun x l => arc_ends pf (rsRole r) x (dlSource l, dlTarget l) /\
    exists c, connection_for (o_order w) (snd x) c /\ connected_by l c) arcs (drsLinks drs)).
  { revert CL. generalize (drsLinks drs). unfold arcs. clear -FD. induction FD as [|[[t locs] as_] [lb k] ns lks (W&HN&Hk&Rk&->&->) FD IH]; intros ls CL.
    - cbn in CL. inversion CL. constructor.
    - cbn [flat_map arcs_of fst snd] in *. apply Forall2_app_inv_l in CL as (l1&l2&C1&C2&->). apply Forall2_app; [|apply IH; exact C2].
      cbn [fst snd] in *. clear -C1 W HN Hk Rk. remember (lArcs k) as full eqn:EF. rewrite EF in C1 at 1. rewrite EF at 2. clear EF. revert l1 C1.
      induction (lArcs k) as [|a l IH]; cbn [map]; intros l1 C1; inversion C1 as [|? dl ? l1' A C1']; subst; constructor; auto.
      unfold link_for in A. cbn [fst snd] in A. destruct A as (A1&A2&A3).
      split; [|exact A3]. cbn [arc_ends fst snd]. split; [now apply (locates_finds _ _ _ _ _ W _ _ _ _ HN Hk Rk)|].
      destruct A2 as (rr&T1&T2). exists rr. split; auto. eapply locates_finds_at; eauto. }
  exists ns, (map (fun l => (dlSource l, dlTarget l)) (drsLinks drs)), (map lbHref (drsNodes drs)).
  split; [exists docs; split; auto|]. cbv zeta. change (flat_map (fun n : tree * list loc * list darc => map (pair n) (snd n)) ns) with arcs. split; [|split; [|split; [|split]]].
  - clear -FA. clearbody arcs. revert FA. generalize (drsLinks drs). intros l0 FA. induction FA as [|x l xs ls (A&_) _ IH]; cbn [map]; constructor; auto.
  - eapply the_member_impl; [|eapply (the_member_of _ _ "Links"); [exact Y|fields|right; left; reflexivity]].
    intros z (us&->&F). exists us. split; auto. clear -FA F. clearbody arcs. revert us F FA. generalize (drsLinks drs). intros l0 us F FA. revert us F.
    induction FA as [|x l xs ls (_&c&A1&A2) _ IH]; intros us F; inversion F as [|? u' ? us' D F']; subst; cbn [map combine]; constructor; auto.
    destruct x as [n a]. cbn [arc_shown fst snd] in *. unfold drs_link_value in D.
    assert (ND : NoDup (map fst ([("SourceHref", shows (dlSource l)); ("TargetHref", shows (dlTarget l))]
          ++ ResponseSpec.optional "HypercubeConnection" cube_shown (dlHC l)
          ++ ResponseSpec.optional "HypercubeDimensionConnection" cube_dimension_shown (dlHD l)
          ++ ResponseSpec.optional "DimensionDomainConnection" dimension_domain_shown (dlDD l)
          ++ ResponseSpec.optional "DomainMemberConnection" domain_member_shown (dlDM l))%list))
      by (destruct (dlHC l), (dlHD l), (dlDD l), (dlDM l); fields).
    split; [eapply the_member_of; [exact D|exact ND|left; reflexivity]|].
    split; [eapply the_member_of; [exact D|exact ND|right; left; reflexivity]|].
    exists c. split; auto.
    destruct c; cbn [connected_by] in A2; destruct A2 as (E1&E2&E3&E4); rewrite E1, E2, E3, E4 in D; cbn [ResponseSpec.optional app] in D;
      (split; [|split; [|split]]); try (eapply lacks_of; [exact D|cbn; intuition discriminate]);
      (eapply the_member_of; [exact D|fields|do 2 right; left; reflexivity]).
  - clear -N2. induction N2 as [|a l S IH F]; cbn [map]; constructor; auto. rewrite Forall_forall in *. intros h H. apply in_map_iff in H as (b&<-&Hb). auto.
  - intro hh. rewrite N1. split.
    + intros (l&Hl&E). exists (dlSource l, dlTarget l). split; [now apply (in_map (fun l => (dlSource l, dlTarget l)))|]. cbn. destruct E; auto.
    + intros (x&Hx&E). apply in_map_iff in Hx as (l&<-&Hl). cbn in E. exists l. split; auto. destruct E; auto.
  - eapply the_member_impl; [|eapply (the_member_of _ _ "Nodes"); [exact Y|fields|left; reflexivity]].
    intros z (us&->&F). exists us. split; auto. clear -F N3 RL LF. revert us F. induction (drsNodes drs) as [|n ns IH]; intros us F; inversion F as [|? u' ? us' D F']; subst; cbn [map]; constructor.
    + split; [eapply (the_member_of _ _ "Href"); [exact D|fields|left; reflexivity]|].
      eapply the_member_impl; [|eapply (the_member_of _ _ "Label"); [exact D|fields|right; left; reflexivity]].
      rewrite (N3 n) by now left. intros z' Z. eapply label_seen; eauto.
    + apply IH; auto. intros. apply N3. now right.
Qed.
Print Assumptions C136_links_partial.

(** ** Root domains *)
Section Domain.
  Variables (d : disk) (dir : string) (root : tree) (pf : string -> f64 * bool) (h : hydratable) (lbl : string -> label_pack).
  Hypothesis RL : read_as d dir root Labels (labels_as_written pf) (hLabel h).
  Hypothesis LF : labels_from h lbl.
  Variable tree_of : list arc -> string -> rarc.
  Variables (role : string) (lb : linkbase darc) (k : link darc).
  Hypothesis LFI : forall label href, locates lb role label href <-> finds (lLocs k) label href.
  Notation href_of := (map_locator_to_href role lb).
  Notation w := (snd (link_networks tree_of k)).

  Lemma networks_drawn : w = Networks (dim_net tree_of (lArcs k) "dimension-domain") (nwDomains w) (dim_net tree_of (lArcs k) "notAll")
    (dim_net tree_of (lArcs k) "all") (dim_net tree_of (lArcs k) "hypercube-dimension") (dim_net tree_of (lArcs k) "dimension-default").
  Proof. reflexivity. Qed.
  Lemma domain_seen item dim u : list_of domain_member_value (fst (get_effective_domain href_of lbl w item dim)) u ->
    domain_shown d dir root pf tree_of (lLocs k) (lArcs k) item dim u.
  Proof.
    intros (us&->&F). destruct (C29_sorted href_of lbl w item dim) as [SS SL].
    pose proof (C29_contradictory href_of lbl w item dim) as CC. pose proof (C29_no_hypercube href_of lbl w item dim) as CN.
    pose proof (C88_entries_partial href_of lbl w item dim) as CE.
    destruct (C30_split tree_of k _ _ (surjective_pairing _)) as [_ DR].
    rewrite networks_drawn in CC, CN, CE. cbn [nwDimDomain nwDomains nwExclusive nwInclusive nwHcDim nwDimDefault] in CC, CN, CE.
    rewrite networks_drawn in SS, SL, F. set (ems := fst _) in SS, SL, F. change (fst (get_effective_domain href_of lbl _ item dim)) with ems in CC.
    exists (map (fun e => (emHref e, emDefault e, emStruck e)) ems), href_of, (nwDomains w).
    split; [|split; [|split; [|split; [|split; [|split]]]]].
    - exists us. split; auto. clear -F SL RL LF. clearbody ems. revert us F. induction ems as [|e ems IH]; intros us F; inversion F as [|? u ? us' D F']; subst; cbn [map]; constructor.
      + split; [eapply (the_member_of _ _ "Href"); [exact D|fields|left; reflexivity]|]. split.
        { eapply the_member_impl; [|eapply (the_member_of _ _ "Label"); [exact D|fields|right; left; reflexivity]].
          rewrite (SL e) by now left. intros z' Z. eapply label_seen; eauto. }
        split; [eapply (the_member_of _ _ "IsDefault"); [exact D|fields|do 2 right; left; reflexivity]|].
        eapply (the_member_of _ _ "IsStrikethrough"); [exact D|fields|do 3 right; left; reflexivity].
      + apply IH; auto. intros. apply SL. now right.
    - clear -SS. clearbody ems. induction SS as [|e l S IH FE]; cbn [map]; constructor; auto. rewrite Forall_forall in *.
      intros x Hx. apply in_map_iff in Hx as (e'&<-&He). specialize (FE _ He). unfold em_before in FE. cbn. tauto.
    - intro l. apply LFI, locates_fun.
    - exact DR.
    - intro NC. assert (EN : ems = []) by (apply CN; intros hc; apply NC; simpl; auto). now rewrite EN.
    - intros (hc&HC). assert (EN : ems = []) by (apply (CC hc); apply HC; simpl; auto). now rewrite EN.
    - intros (T&N1&N2&N3&N4&U1&U2&U3) [[hh df] st]. inversion T as [|? ? T1 T']; subst. inversion T' as [|? ? T2 T'']; subst. inversion T'' as [|? ? T3 T3']; subst.
      inversion T3' as [|? ? T4 T4']; subst. inversion T4' as [|? ? T5 _]; subst.
      specialize (CE T1 T2 T3 T4 T5 N1 N2 N3 N4 U1 U2 U3). change (fst (get_effective_domain href_of lbl _ item dim)) with ems in CE. rewrite in_map_iff. split.
      + intros (e&[= <- <- <-]&He). apply CE in He as (_&He). cbn in He. unfold domain_entry.
        destruct (emDefault e), (emStruck e); tauto.
      + intro DE. exists (EM hh (lbl hh) df st). split; auto. apply CE. split; auto. cbn. unfold domain_entry in DE.
        destruct df, st; tauto.
  Qed.
End Domain.

Lemma dimensions_seen d dir root pf role entries docs k : Forall2 (written_in d dir root pf) entries docs -> definition_books d dir root docs ->
  dimensions d dir root pf role (lArcs k) (dimension_hrefs role (lArcs k) (map snd entries)).
Proof.
  intros F DB. split; [apply dimension_hrefs_NoDup|].
  assert (KE : map fst docs = map fst entries) by (clear -F; induction F as [|e x es xs (E&_) _ IH]; cbn [map]; congruence).
  pose proof DB as [ND _]. rewrite KE in ND.
  assert (G : forall x b, In (x, b) entries -> sget x entries = Some b) by (intros; apply (In_mget String.eqb seqP); auto).
  exists docs, (fun x label => match sget x entries with Some b => map_locator_to_href role b label | None => "" end).
  split; auto. split.
  - intros x t label I.
    assert (X : exists b, In (x, b) entries /\ links_as_written "definitionLink" "definitionArc" (is_definition_arc pf) t b).
    { clear -F I. induction F as [|[x' b] y es ys (E&_&W) _ IH]; [destruct I|]. destruct I as [->|I].
      - cbn in E. subst x'. exists b. split; [now left|exact W].
      - destruct (IH I) as (b'&I'&W'). exists b'. split; [now right|exact W']. }
    destruct X as (b&I'&W). rewrite (G _ _ I'). eapply locates_finds_at; [exact W|]. apply locates_fun.
  - intro h. rewrite dimension_hrefs_In. split.
    + intros (b&Hb&a&Ha&R&L). apply in_map_iff in Hb as ([x b']&E&Hb). cbn in E. subst b'. exists a, x. split; auto. split; auto.
      split; [rewrite KE; now apply (in_map fst) in Hb|]. rewrite (G _ _ Hb). symmetry. now apply locates_eq.
    + intros (a&x&Ha&R&Hx&E). rewrite KE in Hx. apply in_map_iff in Hx as ([x' b]&E'&Hb). cbn in E'. subst x'. rewrite (G _ _ Hb) in E.
      exists b. split; [now apply (in_map snd) in Hb|]. exists a. split; auto. split; auto. subst h. apply locates_fun.
Qed.

(** The root domains are the tops of the domain-member arcs of all the definition linkbases that
    have the network, as far as they are no domains of dimensions, each with the outline below it;
    their dimensions, and the domain of each row and dimension, are those that the arcs draw. *)
Theorem C136_roots_partial :
  forall d dir name images pf sh tokens utr h, orders sh -> supported name -> loaded d dir name images pf sh tokens utr h ->
  exists file root, entry_at d dir root name file /\
    (plain_books d dir root -> plain_definitions d dir root ->
     forall w slug bytes,
       (forall x t role locs arcs, linkbase_at d dir root Definitional x t -> definition_in pf t role locs arcs ->
          orders_are_numbers (dim_net (o_tree w) arcs "domain-member")) ->
       marshalled_renderable w h slug (Ok (Some bytes)) ->
       exists e r v, is_slug e r slug /\ reads_as bytes v /\ has v "RelationshipSet" (relationship_set r) /\
         the_member v "DGrid" (roots_shown d dir root pf (o_tree w) (rsRole r))).
Proof.
  intros d dir name images pf sh tokens utr h O N L.
  destruct (books_read _ _ _ _ _ _ _ _ _ O N L) as (file&root&EA&BR).
  destruct (definitions_read _ _ _ _ _ _ _ _ _ O N L) as (file'&root'&EA'&DR).
  assert (root' = root) as -> by (eapply entry_root; eauto).
  exists file, root. split; auto. intros PB PD w slug bytes NN M. destruct (BR PB) as (_&_&RL).
  destruct (definition_member _ _ _ _ M) as (e&r&v&dg&rs&ls&langs&SL&J&RS&DG&V). exists e, r, v. split; auto. split; auto. split; auto.
  eapply the_member_impl; [|exact V]. intros u U.
  destruct (d_parts _ _ _ _ _ _ _ _ DG eq_refl) as (lbl&genv&dims&order&lbs&lbs'&rs'&ls'&LF&PO&VD&VL&_&ER&_).
  destruct (DR PD _ VL) as (entries&docs&EL&FW&DB). subst lbs.
  pose proof (net_links_network (rsRole r) (map snd entries)) as NL.
  destruct (drawings_of _ _ _ _ _ _ _ _ FW NL) as (ns&IM&FD).
  apply root_domains_built in ER. unfold net_roots in ER.
  set (primary := fun lk : linkbase darc * link darc => fst (link_networks (o_tree w) (snd lk))) in *.
  exists ns, (map primary (net_links (rsRole r) (map snd entries))).
  split; [exists docs; split; auto|]. split.
  { clear -FD. revert FD. generalize (net_links (rsRole r) (map snd entries)). intros l FD.
    induction FD as [|[[t locs] arcs] [lb k] ns' l' (_&_&_&_&_&->) _ IH]; cbn [map]; constructor; auto.
    unfold item_roots, primary. cbn [snd]. exact (split_primary (o_tree w) k). }
  eapply the_member_impl; [|eapply (the_member_of _ _ "RootDomains"); [exact U|fields|left; reflexivity]].
  intros y (us&->&F). exists us. split; auto. cbn [format_d dgRootDomains] in F.
  assert (ONE : forall n lk top i rd u', drawn pf (rsRole r) n lk -> In top (primary lk) ->
     built (o_tree w) lbl (concept_for w h) genv dims (stringify e) (rsRole r) (fst lk) (snd lk) top i rd ->
     (exists x, linkbase_at d dir root Definitional x (fst (fst n))) ->
     root_value (format_root (o_spanish w) langs rd) u' -> root_shown d dir root pf (o_tree w) (rsRole r) (n, top) u').
  { clear - RL LF DR PD VD NN O N L. intros [[t locs] arcs] [lb k] top i rd u' (W&HN&Hk&Rk&->&->) Ht B (x&T) V. cbn [fst snd] in *.
    destruct B as (E1&E2&E3&E4&E5&_).
    assert (LFI : forall label href, locates lb (rsRole r) label href <-> finds (lLocs k) label href)
      by (intros; exact (locates_finds _ _ _ _ _ W _ _ _ _ HN Hk Rk)).
    assert (ON : orders_are_numbers top).
    { intros m Hm. apply (NN x t (rsRole r) (lLocs k) (lArcs k) T (network_read _ _ _ _ _ W _ _ Hk Rk)). unfold dim_net.
      eapply node_below; [|exact Hm]. unfold primary in Ht. cbn [snd] in Ht. unfold link_networks, split_networks in Ht. cbn [fst] in Ht. apply filter_In in Ht as [Ht _]. exact Ht. }
    destruct (DR PD _ (VD lb k)) as (entries&docs&EL&FW&DB).
    unfold root_value in V. cbn [format_root rdHref rdLabel rdItems rdPeriods rdMembers rdVoid rdFacts rdFootnoteGrid rdFootnotes rdDomains rdDimensions] in V.
    set (dm := dimension_hrefs (rsRole r) (lArcs k) (dims lb k)) in *.
    exists (rdHref rd), (listing top 0), (map ilHref (rdItems rd)), dm.
    split; [rewrite E1; apply LFI, locates_fun|]. split; [now apply listing_preorder|].
    split; [eapply (the_member_of _ _ "Href"); [exact V|fields|left; reflexivity]|].
    split.
    { eapply the_member_impl; [|eapply (the_member_of _ _ "Label"); [exact V|fields|right; left; reflexivity]].
      rewrite E2. intros z Z. eapply label_seen; eauto. }
    split.
    { eapply the_member_impl; [|eapply (the_member_of _ _ "PrimaryItems"); [exact V|fields|do 2 right; left; reflexivity]].
      rewrite E3. intros z (vs&->&F). exists vs. split; auto. clear - F LFI RL LF. revert vs F. generalize (listing top 0). intros l vs F. revert vs F.
      induction l as [|x l IH]; cbn [map]; intros vs F; inversion F as [|? z ? vs' D F']; subst; constructor; auto.
      exists (map_locator_to_href (rsRole r) lb (fst x)). split; [apply LFI, locates_fun|]. split; [|split].
      - eapply row_href in D; [exact D|discriminate|discriminate].
      - eapply (the_member_of _ _ "Level"); [exact D|fields|do 2 right; left; reflexivity].
      - eapply the_member_impl; [|eapply (the_member_of _ _ "Label"); [exact D|fields|right; left; reflexivity]].
        intros z' Z. eapply label_seen; eauto. }
    split.
    { rewrite E3. clear - LFI. induction (listing top 0) as [|x l IH]; cbn [map]; constructor; auto. apply LFI, locates_fun. }
    split; [unfold dm; rewrite EL; eapply dimensions_seen; eauto|]. split.
    { eapply the_member_impl; [|eapply (the_member_of _ _ "EffectiveDimensions"); [exact V|fields|do 10 right; left; reflexivity]].
      rewrite E4. intros z (vs&->&F). exists vs. split; auto. clear - F RL LF. revert vs F.
      induction dm as [|x l IH]; cbn [map]; intros vs F; inversion F as [|? z ? vs' D F']; subst; constructor; auto.
      split; [eapply (the_member_of _ _ "Href"); [exact D|fields|left; reflexivity]|].
      eapply the_member_impl; [|eapply (the_member_of _ _ "Label"); [exact D|fields|right; left; reflexivity]].
      intros z' Z. eapply label_seen; eauto. }
    eapply the_member_impl; [|eapply (the_member_of _ _ "EffectiveDomainGrid"); [exact V|fields|do 9 right; left; reflexivity]].
    rewrite E5. intros z (vs&->&F). exists vs. split; auto. clear - F RL LF LFI. revert vs F.
    generalize (rdHref rd :: map ilHref (rdItems rd)). intros rows.
    induction rows as [|x l IH]; cbn [map]; intros vs F; inversion F as [|? z ? vs' D F']; subst; constructor; auto.
    destruct D as (zs&->&D). exists zs. split; auto. clear - D RL LF LFI. revert zs D.
    induction dm as [|y l IH]; cbn [map]; intros vs F; inversion F as [|? z ? vs' D F']; subst; constructor; auto.
    eapply domain_seen; eauto. }
  assert (TD : Forall (fun n : drawing => exists x, linkbase_at d dir root Definitional x (fst (fst n))) ns).
  { apply Forall_forall. intros [[t locs] arcs] Hn. apply (image_of_In _ _ _ _ IM) in Hn as ([x t']&Hx&(->&_)). exists x. now apply DB. }
  revert us F ER TD. generalize 0. generalize (dgRootDomains dg). clear - FD ONE.
  revert FD ONE. generalize (net_links (rsRole r) (map snd entries)). intros lks FD ONE.
  induction FD as [|n lk ns lks D FD IH]; intros rds i us F B TD; cbn [flat_map map combine concat app] in *.
  - inversion B; subst. inversion F. constructor.
  - inversion TD as [|? ? T TD']; subst.
    assert (SPL : forall (tops : list rarc) rest i rds, built_all (o_tree w) lbl (concept_for w h) genv dims (stringify e) (rsRole r) (map (pair lk) tops ++ rest)%list i rds ->
      exists r1 r2, rds = (r1 ++ r2)%list /\ Forall2 (fun top rd => exists i, built (o_tree w) lbl (concept_for w h) genv dims (stringify e) (rsRole r) (fst lk) (snd lk) top i rd) tops r1 /\
        exists j, built_all (o_tree w) lbl (concept_for w h) genv dims (stringify e) (rsRole r) rest j r2).
    { clear. induction tops as [|t tops IH]; cbn [map app]; intros rest i rds B; [exists [], rds; split; auto; split; [constructor|eauto]|].
      destruct lk as [lb k]. inversion B as [|? ? ? ? ? rd rds' B1 B2]; subst. destruct (IH _ _ _ B2) as (r1&r2&->&F&J). exists (rd :: r1), r2. split; auto. split; auto. constructor; eauto. }
    destruct (SPL _ _ _ _ B) as (r1&r2&->&F1&j&B2). rewrite map_app in F. apply Forall2_app_inv_l in F as (u1&u2&G1&G2&->).
    apply Forall2_app; [|eapply IH; eauto].
    assert (Z : forall tops rl ul, (forall top, In top tops -> In top (primary lk)) ->
      Forall2 (fun top rd => exists i, built (o_tree w) lbl (concept_for w h) genv dims (stringify e) (rsRole r) (fst lk) (snd lk) top i rd) tops rl ->
      Forall2 root_value (map (format_root (o_spanish w) langs) rl) ul ->
      Forall2 (root_shown d dir root pf (o_tree w) (rsRole r)) (map (pair n) tops) ul).
    { intros tops rl ul AI FF. revert ul. induction FF as [|top rd tl rl (i'&B1) FF IH1]; cbn [map]; intros ul G; inversion G as [|? z ? u1' V G']; subst; constructor.
      - eapply ONE; eauto. apply AI. now left.
      - apply IH1; auto. intros. apply AI. now right. }
    eapply Z; [|exact F1|exact G1]. auto.
Qed.
Print Assumptions C136_roots_partial.

(** ** A folder with two definition linkbases, of which one has the network *)
Definition cubes_arc (arcrole from to : string) : tree :=
  lk "definitionArc" [xl "type" "arc"; xl "arcrole" ("http://xbrl.org/int/dim/arcrole/" ++ arcrole); xl "from" from; xl "to" to; pa "order" "1"] [].
Definition cubes_links : tree := lk "linkbase" []
  [lk "roleRef" [xl "type" "simple"; pa "roleURI" "urn:r"; xl "href" "a.xsd#r"] [];
   lk "definitionLink" [xl "type" "extended"; xl "role" "urn:r"]
     [loc_of "A"; loc_of "B"; loc_of "H"; loc_of "D"; loc_of "M"; loc_of "N";
      cubes_arc "all" "A" "H"; cubes_arc "hypercube-dimension" "H" "D"; cubes_arc "dimension-domain" "D" "M";
      cubes_arc "domain-member" "A" "B"; cubes_arc "domain-member" "M" "N"; cubes_arc "dimension-default" "D" "M"]].
Definition cubes_root : tree := xbrl_doc [schema_ref_to "a.xsd"; a_context; fact_saying "urn:a" "A" "f1" "1"].
Definition cubes_schema : tree := schema_tree "urn:a"
  [xs "annotation" [] [xs "appinfo" [] [linkbase_ref_to "definition" "def.xml"; linkbase_ref_to "definition" "def2.xml";
     a_role "r" [lk "definition" [] [txt "010 - Cover"]]]];
   concept_tree "A"; concept_tree "B"; concept_tree "H"; concept_tree "D"; concept_tree "M"; concept_tree "N"].
Definition cubes_disk : disk := small_disk [(in_dir "x.xml", cubes_root); (in_dir "a.xsd", cubes_schema);
  (in_dir "def.xml", cubes_links); (in_dir "def2.xml", lk "linkbase" [] [])].
Definition cubes_end : state := go_on (files_of cubes_disk) small_dir 60
  (schema_ref (files_of cubes_disk) small_dir (first_folder (files_of cubes_disk) small_dir "x.xml") (instance_struct cubes_root)).
Definition cubes_folder : folder := DiscoverModel.finish "x.xml" (instance_struct cubes_root) (fst cubes_end).
Definition cubes_report : hydratable :=
  match hydrate ex_pf plain_order (d_url cubes_disk) (global_schema_file cubes_disk) ex_tokens (Ok []) (Ok None) cubes_folder with
  | Ok h => h | _ => Hydratable cubes_folder [] None [] [] [] [] [] [] end.
Definition cubes_outside : outside :=
  Outside (d_url cubes_disk) (global_schema_file cubes_disk) (Ok []) (Ok []) sample_tree (fun _ => []) (fun _ _ _ => None) (fun _ => None) (fun _ => "") (fun _ => None).
Lemma cubes_entry : entry_at cubes_disk small_dir cubes_root "x.xml" "x.xml".
Proof. apply small_entry_at; [reflexivity|do 4 eexists; reflexivity]. Qed.
Lemma cubes_loaded : loaded cubes_disk small_dir "x.xml" false ex_pf plain_order ex_tokens (Ok []) cubes_report.
Proof.
  exists cubes_folder, (Ok None). split; [|split; [vm_compute; constructor|vm_compute; reflexivity]].
  assert (EI : entry_instance (files_of cubes_disk) small_dir "x.xml" "x.xml" (instance_struct cubes_root)) by (apply entry_iff; eauto using cubes_entry).
  apply (discover_iff _ _ _ _ _ _ _ EI). exists cubes_end. split; [apply go_on_runs; constructor|]. split; [vm_compute; repeat constructor|reflexivity].
Qed.
Lemma cubes_linkbase k x t : linkbase_at cubes_disk small_dir cubes_root k x t -> t = cubes_links \/ t = lk "linkbase" [] [].
Proof.
  intros (_&_&_&_&L). destruct L as [_ L]. apply small_document in L as [E (?&?&?&?&N)]. simpl in E.
  repeat destruct E as [E|E]; try contradiction; injection E as _ <-; try discriminate N; auto.
Qed.
Lemma cubes_plain : plain_books cubes_disk small_dir cubes_root /\ plain_definitions cubes_disk small_dir cubes_root.
Proof.
  assert (OW : forall k x t l ps, linkbase_at cubes_disk small_dir cubes_root k x t -> own_links t l ps).
  { intros k x t l ps T. apply cubes_linkbase in T as [->| ->];
      intros y s Hy Ny; simpl in Hy; repeat destruct Hy as [<-|Hy]; try contradiction; destruct Ny as (?&?&?&Ny); injection Ny; intros; subst; (split; [reflexivity|]);
      intros z l' s' Hz _ Nz; simpl in Hz; repeat destruct Hz as [<-|Hz]; try contradiction; destruct Nz as (?&?&?&Nz); injection Nz; intros; subst; reflexivity. }
  split; [split; [|split]|]; intros x t T; try (eapply OW; eauto; fail).
  split; [eapply OW; eauto|]. intros y z k Hy (?&?&?&?&Ny) _ _ _.
  apply cubes_linkbase in T as [->| ->]; simpl in Hy; repeat destruct Hy as [<-|Hy]; try contradiction; discriminate Ny.
Qed.
Lemma cubes_numbers x t role locs arcs : linkbase_at cubes_disk small_dir cubes_root Definitional x t -> definition_in ex_pf t role locs arcs ->
  orders_are_numbers (dim_net (o_tree cubes_outside) arcs "domain-member").
Proof.
  intros _ H. apply sample_orders. intros b Hb. apply in_map_iff in Hb as (a&<-&Ha). cbn [arOrder].
  destruct (network_arcs _ _ _ _ _ _ _ _ H Ha) as (e&A&_). eapply ex_order; eauto.
Qed.
Definition cubes_grid : d_grid :=
  match own_d cubes_outside cubes_report (stringify pair_entity) (rsRole pair_set) with Ok (g, _, _) => g | _ => DGrid [] (DRS [] []) end.
(** The hypotheses of both theorems are met, and the grid is not empty. *)
Example C136_example :
  loaded cubes_disk small_dir "x.xml" false ex_pf plain_order ex_tokens (Ok []) cubes_report /\
  plain_books cubes_disk small_dir cubes_root /\ plain_definitions cubes_disk small_dir cubes_root /\
  (forall x t role locs arcs, linkbase_at cubes_disk small_dir cubes_root Definitional x t -> definition_in ex_pf t role locs arcs ->
     orders_are_numbers (dim_net (o_tree cubes_outside) arcs "domain-member")) /\
  (exists bytes, marshalled_renderable cubes_outside cubes_report pair_slug (Ok (Some bytes))) /\
  map (fun rd => (rdHref rd, map ilHref (rdItems rd), map lbHref (rdDimensions rd))) (dgRootDomains cubes_grid) =
    [("a.xsd#id_A", ["a.xsd#id_B"], ["a.xsd#id_D"; "#D"])] /\
  map dlSource (drsLinks (dgDRS cubes_grid)) = map (append "a.xsd#id_") ["A"; "H"; "D"; "A"; "M"; "D"].
Proof.
  split; [exact cubes_loaded|]. destruct cubes_plain as [P K]. split; [exact P|]. split; [exact K|]. split; [exact cubes_numbers|]. split.
  - apply (own_rendering cubes_outside cubes_report pair_slug pair_entity pair_set "urn:s/0"); vm_compute; try reflexivity; discriminate.
  - split; vm_compute; reflexivity.
Qed.

(** ** Refuted: a dimension may be nobody's concept *)
Lemma own_definition_value w h slug e r name dg rs ls :
  find_slug slug (sorted_entities (own_insts h)) (sorted_relationship_sets (map snd (hSchemas h))) = Some (e, r) ->
  entity_query (o_names w) (eScheme e) (eChar e) = Ok name ->
  own_d w h (stringify e) (rsRole r) = Ok (dg, rs, ls) -> own_p w h (stringify e) (rsRole r) <> Panic -> own_c w h (stringify e) (rsRole r) <> Panic ->
  exists bytes v langs, marshalled_renderable w h slug (Ok (Some bytes)) /\ reads_as bytes v /\ has v "RelationshipSet" (relationship_set r) /\
    the_member v "DGrid" (d_grid_value (format_d (o_spanish w) langs dg)).
Proof.
  intros F Q D P C.
  destruct (some_end (own_p w h (stringify e) (rsRole r)) (own_d w h (stringify e) (rsRole r)) (own_c w h (stringify e) (rsRole r))) as (conf&R&DN).
  pose proof (rr_done w h slug _ _ e r _ _ _ conf (visited_own _) (visited_own _) F (own_p_grids w h _ _) (own_d_grids w h _ _) (own_c_grids w h _ _)
    P ltac:(rewrite D; discriminate) C R DN) as M. apply mr_returned in M.
  unfold marshal_renderable in M. unfold own_insts in F. rewrite F, Q in M. cbn [renderable_bytes bind rnSet] in M.
  unfold rendered in M. match type of M with context [Renderable r (Subject name e) (?g, ?a, ?b)] =>
    destruct (C119_renderable (linked (rsRole r) (map snd (hCalculation h))) r (Subject name e) g a b) as (v&J&V) end.
  eexists. exists v. eexists. split; [exact M|]. split; [exact J|]. split.
  { apply the_member_has. eapply (the_member_of _ _ "RelationshipSet"); [exact V|fields|left; reflexivity]. }
  cbn [gdD] in V. rewrite D in V. cbn [grid_or] in V. eapply (the_member_of _ _ "DGrid"); [exact V|fields|do 5 right; left; reflexivity].
Qed.
Lemma cubes_located x t role locs arcs l : linkbase_at cubes_disk small_dir cubes_root Definitional x t -> definition_in ex_pf t role locs arcs ->
  In l locs -> exists n, locHref l = "a.xsd#id_" ++ n.
Proof.
  intros T (links&ks&I&TH&->&_) Hl. apply in_flat_map in Hl as (k&Hk&Hl). apply (those_In _ _ _ _ TH) in Hk.
  apply (image_of_In _ _ _ _ I) in Hk as (y&Hy&_&_&_&L&_). apply (image_of_In _ _ _ _ L) in Hl as (z&Hz&a&i&ks'&->&R).
  pose proof (lc_href _ _ R) as A. cbn in A.
  apply cubes_linkbase in T as [->| ->]; simpl in Hy; repeat destruct Hy as [<-|Hy]; try contradiction; simpl in Hz; repeat destruct Hz as [Hz|Hz]; try contradiction;
    unfold loc_of, cubes_arc, lk in Hz; injection Hz; intros; subst; try discriminate;
    apply (req_iff _ _ _) in A; injection A as <-; eexists; reflexivity.
Qed.
(** With a second definition linkbase in the folder, the locator label of a dimension is shown as
    a dimension: no locator points to it. *)
Theorem C136_refuted :
  ~ (forall d dir name images pf sh tokens utr h file root, orders sh -> supported name -> loaded d dir name images pf sh tokens utr h ->
       entry_at d dir root name file -> plain_books d dir root -> plain_definitions d dir root ->
       forall w slug bytes e r v, marshalled_renderable w h slug (Ok (Some bytes)) -> is_slug e r slug -> reads_as bytes v ->
       has v "RelationshipSet" (relationship_set r) ->
       forall i j href, JsonSpec.text href ->
         has v "DGrid" (fun g => has g "RootDomains" (fun l => the_item l i (fun u => has u "EffectiveDimensions" (fun l' => the_item l' j (href_shown href))))) ->
         exists x t role locs arcs k, linkbase_at d dir root Definitional x t /\ definition_in pf t role locs arcs /\ In k locs /\ locHref k = href).
Proof.
  intro H.
  assert (PD : exists dg rs ls, own_d cubes_outside cubes_report (stringify pair_entity) (rsRole pair_set) = Ok (dg, rs, ls) /\
    map (fun rd => map lbHref (rdDimensions rd)) (dgRootDomains dg) = [["a.xsd#id_D"; "#D"]]) by (do 3 eexists; split; vm_compute; reflexivity).
  destruct PD as (dg&rs&ls&OD&PL).
  destruct (own_definition_value cubes_outside cubes_report pair_slug pair_entity pair_set "urn:s/0" dg rs ls) as (bytes&v&langs&M&J&RS&V);
    [vm_compute; reflexivity|vm_compute; reflexivity|exact OD|vm_compute; discriminate|vm_compute; discriminate|].
  destruct (H _ _ _ _ _ _ _ _ _ _ _ plain_orders x_supported cubes_loaded cubes_entry (proj1 cubes_plain) (proj2 cubes_plain)
    cubes_outside pair_slug bytes pair_entity pair_set v M (hash_slug _ _) J RS 0 1 "#D") as (x&t&role&locs&arcs&k&T&D&Hk&E).
  { apply JsonProofs.san_iff. reflexivity. }
  { destruct dg as [[|rd [|]] drs]; cbn [dgRootDomains map] in PL; try discriminate. injection PL as PL.
    destruct (rdDimensions rd) as [|d1 [|d2 [|]]] eqn:ED; cbn [map] in PL; try discriminate. injection PL as P1 P2.
    apply the_member_has. eapply the_member_impl; [|exact V]. intros g G.
    apply the_member_has. eapply the_member_impl; [|eapply (the_member_of _ _ "RootDomains"); [exact G|fields|left; reflexivity]].
    intros y (us&->&F). cbn [format_d dgRootDomains map] in F. inversion F as [|? u ? us' U F']; subst. exists (u :: us'), u. split; auto. split; auto.
    apply the_member_has. eapply the_member_impl; [|eapply (the_member_of _ _ "EffectiveDimensions"); [exact U|fields|do 10 right; left; reflexivity]].
    intros z (us&->&F2). cbn [format_root rdDimensions] in F2. rewrite ED in F2. inversion F2 as [|? u1 ? us1 U1 F3]; subst. inversion F3 as [|? u2 ? us2 U2 F4]; subst.
      do 2 eexists. split; [reflexivity|]. split; [reflexivity|]. rewrite <- P2. unfold href_shown. eapply (the_member_of _ _ "Href"); [exact U2|fields|left; reflexivity]. }
  destruct (cubes_located _ _ _ _ _ _ T D Hk) as (n&En). rewrite En in E. discriminate E.
Qed.
Print Assumptions C136_refuted.
