(** * AlikeNetProps: C149 for two servers, or for one before and after a restart *)
From Verif Require Import GoBase GoSpec GoFacts AttrModel AttrSpec AttrProofs SchemaModel SchemaSpec SchemaProofs SchemaProps
  LinkbaseModel LinkbaseSpec LinkbaseProofs LinkbaseProps InstanceModel InstanceSpec InstanceProofs InstanceProps
  HydrateModel HydrateSpec HydrateProofs HydrateProps LabelModel LabelSpec LabelProofs LabelProps PeriodModel PeriodSpec PeriodProofs PeriodProps
  FactModel FactSpec FactProofs FactProps GridModel GridSpec GridProofs GridProps CalcModel CalcSpec CalcProofs CalcProps DefModel DefSpec DefProofs DefProps
  RenderModel RenderSpec RenderProofs RenderProps ExpressModel ExpressSpec ExpressProofs ExpressProps
  DiscoverModel DiscoverSpec DiscoverProofs DiscoverProps XmlModel XmlSpec XmlProofs XmlProps LoadModel LoadSpec LoadProofs LoadProps
  CatalogModel CatalogSpec CatalogProofs CatalogProps ReportModel ResponseModel ResponseSpec ResponseProofs ResponseProps EndToEndSpec EndToEndProps
  ReportSpec ReportProofs ReportProps AskSpec AskProps SteadySpec SteadyProofs ImageModel ImageSpec ImageProofs ImageProps
  WebModel WebSpec WebProofs WebProps PathSpec RouterModel RouterSpec RouterProofs RouterProps.
From Verif Require CacheModel CacheSpec CacheProofs CacheProps.
From Verif Require Import ColumnProps ServerModel ServerSpec ServerProps ServedProps DocNameProps InertProps FactSameProps SteadyProps SameProofs SameProps AlikeProofs AlikeProps.
Local Open Scope nat_scope.
Local Open Scope string_scope.

(** Two linkbases with the same links, one per role, in whatever order *)
Definition links_alike {A} (lb lb' : linkbase A) : Prop :=
  lbRoleRefs lb = lbRoleRefs lb' /\ NoDup (map lRole (lbLinks lb)) /\ Permutation (lbLinks lb) (lbLinks lb').
Lemma find_one {A} role (l : list (link A)) k : NoDup (map lRole l) -> In k l -> lRole k = role -> find (fun x => String.eqb (lRole x) role) l = Some k.
Proof.
  induction l as [|x l IH]; cbn; [intros _ []|]; intros N [->|I] E.
  - rewrite E, String.eqb_refl. reflexivity.
  - inversion N as [|? ? N1 N2]; subst. destruct (String.eqb (lRole x) (lRole k)) eqn:Q; auto. apply String.eqb_eq in Q. elim N1. rewrite Q. now apply in_map.
Qed.
Lemma find_links {A} role (l l' : list (link A)) : NoDup (map lRole l) -> Permutation l l' ->
  find (fun x => String.eqb (lRole x) role) l = find (fun x => String.eqb (lRole x) role) l'.
Proof.
  intros N P. assert (N' : NoDup (map lRole l')) by (eapply Permutation_NoDup; [apply Permutation_map, P|exact N]).
  destruct (find (fun x => String.eqb (lRole x) role) l) as [k|] eqn:F.
  - apply find_some in F as [I E]. apply String.eqb_eq in E. symmetry. apply find_one; auto. eapply Permutation_in; eauto.
  - destruct (find (fun x => String.eqb (lRole x) role) l') as [k|] eqn:F'; auto. apply find_some in F' as [I E]. apply String.eqb_eq in E.
    rewrite (find_one role l k) in F; [discriminate|auto| |auto]. eapply Permutation_in; [apply Permutation_sym, P|auto].
Qed.
Lemma locs_one {A} role (l : list (link A)) : NoDup (map lRole l) ->
  flat_map (fun k => if String.eqb (lRole k) role then lLocs k else []) l = match find (fun x => String.eqb (lRole x) role) l with Some k => lLocs k | None => [] end.
Proof.
  induction l as [|x l IH]; cbn; intro N; auto. inversion N as [|? ? N1 N2]; subst. destruct (String.eqb (lRole x) role) eqn:Q; [|apply IH; auto].
  apply String.eqb_eq in Q. rewrite IH by auto. destruct (find _ l) as [k|] eqn:F; [|apply app_nil_r].
  apply find_some in F as [I E]. apply String.eqb_eq in E. elim N1. rewrite Q, <- E. now apply in_map.
Qed.
Lemma locator_alike {A} role (lb lb' : linkbase A) x : links_alike lb lb' -> map_locator_to_href role lb x = map_locator_to_href role lb' x.
Proof.
  intros (R&N&P). unfold map_locator_to_href. rewrite R. rewrite (locs_one role (lbLinks lb)) by auto.
  rewrite (locs_one role (lbLinks lb')) by (eapply Permutation_NoDup; [apply Permutation_map, P|exact N]). rewrite (find_links role _ _ N P). reflexivity.
Qed.
Lemma rows_alike tree lbl role lbs lbs' : Forall2 links_alike lbs lbs' -> get_indented_labels tree lbl role lbs = get_indented_labels tree lbl role lbs'.
Proof.
  unfold get_indented_labels. induction 1 as [|lb lb' lbs lbs' X F IH]; cbn [first_link]; auto.
  pose proof X as (R&N&P). rewrite <- R, <- (find_links role _ _ N P). destruct (existsb _ _); [|exact IH]. destruct (find _ _) as [k|]; [|exact IH]. cbv zeta.
  rewrite (map_ext _ (fun x => IndentedLabel (map_locator_to_href role lb' (fst x)) (lbl (map_locator_to_href role lb' (fst x))) (snd x))); auto.
  intro x. now rewrite (locator_alike role lb lb').
Qed.

(** ** Two loads *)
Lemma Forall2_join {A B C} (P : A -> B -> Prop) (Q : A -> C -> Prop) (R : B -> C -> Prop) l a b : (forall x y z, P x y -> Q x z -> R y z) ->
  Forall2 P l a -> Forall2 Q l b -> Forall2 R a b.
Proof. intros K F. revert b. induction F; intros b G; inversion G; subst; constructor; eauto. Qed.
Lemma loaded_alike {A B} (f f' : option A -> string -> res B) (R : B -> B -> Prop) files files' out out' order :
  (forall a k b b', f (Some a) k = Ok b -> f' (Some a) k = Ok b' -> R b b') -> Permutation files files' ->
  all_loaded f files out -> all_loaded f' files' out' -> visited out order -> exists order', visited out' order' /\ Forall2 R order order'.
Proof.
  intros K P [_ F] [_ F'] V. destruct (Permutation_Forall2 (Permutation_sym P) F') as (o2&P2&F2).
  assert (J : Forall2 (fun x y => R (snd x) (snd y)) out o2) by (eapply Forall2_join; [|exact F|exact F2]; cbn; intros; eapply K; eauto).
  assert (J' : Forall2 R (map snd out) (map snd o2)) by (clear - J; induction J; cbn; constructor; auto).
  destruct (Permutation_Forall2 (Permutation_sym V) J') as (o3&P3&F3). exists o3. split; auto. unfold visited.
  etransitivity; [apply Permutation_sym, P3|]. apply Permutation_map. now apply Permutation_sym.
Qed.
Section Networks.
  Variables (d : disk) (dir name : string) (images images' : bool) (pf : string -> f64 * bool) (sh sh' : shuffles) (tokens : string -> list token) (utr : res registry).
  Variables (w : outside) (h h' : hydratable).
  Hypothesis S : supported name.
  Hypothesis O : orders sh.
  Hypothesis O' : orders sh'.
  Hypothesis L : loaded d dir name images pf sh tokens utr h.
  Hypothesis L' : loaded d dir name images' pf sh' tokens utr h'.
  Hypothesis ONE : forall file root ns, entry_at d dir root name file -> one_claim d dir root ns.
  Lemma presentations_alike order : visited (hPresentation h) order -> exists order', visited (hPresentation h') order' /\ Forall2 links_alike order order'.
  Proof.
    pose proof L as (fd0&doc0&D&_&H0). pose proof L' as (fd0'&doc0'&D'&_&H0').
    destruct (C102_instance_partial _ _ _ _ _ S D) as (fl&i&EI&_). destruct (C102_instance_partial _ _ _ _ _ S D') as (fl'&i'&EI'&_).
    destruct (outcome_exact _ _ _ _ _ _ _ EI D) as (_&K&_&_&_&_&M). destruct (outcome_exact _ _ _ _ _ _ _ EI' D') as (_&K'&_&_&_&_&M').
    apply entry_iff in EI as (root&EA&->). apply entry_iff in EI' as (root'&EA'&->).
    assert (root' = root) as -> by (eapply entry_root; [exact EA|exact EA']).
    apply C79_complete in H0 as (_&_&HP&_). apply C79_complete in H0' as (_&_&HP'&_).
    eapply loaded_alike; [|apply NoDup_Permutation; [exact (NoDup_map_inv _ _ (M Presentation))|exact (NoDup_map_inv _ _ (M' Presentation))|intros [x l]; rewrite (K Presentation), (K' Presentation); reflexivity]|exact HP|exact HP'].
    intros a k b b'. unfold hydrate_linkbase. destruct (negb _); [discriminate|]. intros [= <-] [= <-]. split; [reflexivity|]. cbn [lbLinks].
    split; [apply (C48_merge _ (shP sh k)); intro; apply O|apply C48_order_irrelevant; intro; [apply O|apply O']].
  Qed.
  Lemma presentation_transfer entity role p : p_grids w h entity role p -> p_grids w h' entity role p.
  Proof.
    intros (lbl&g&lbs&F&G&V&->). destruct (presentations_alike lbs V) as (lbs'&V'&A).
    destruct (loads_alike _ _ _ _ _ _ _ _ _ _ _ _ S L L' ONE) as (AL&I&_&_). pose proof (loads_labels _ _ _ _ _ _ _ _ _ _ _ _ S L L' ONE) as P.
    exists lbl, g, lbs'. split; [eapply labels_transfer; eauto|]. split.
    - destruct G as [G1 G2 G3 G4 G5 G6 G7 G8 G9 G10]. split; try rewrite I; auto. intros i j. eapply render_transfer; [apply AL|exact I|apply G7].
    - split; [exact V'|]. unfold p_grid_of. rewrite (rows_alike _ _ _ _ _ A). destruct (get_indented_labels _ _ _ _) as [labels packs].
      rewrite (relevant_ext _ _ (concept_for w h) (concept_for w h')); [reflexivity|]. intro x. apply concept_transfer, AL.
  Qed.
End Networks.

(** C149, for two loads of one folder in which every namespace has one document: two answers for one network show the same subject,
    relationship set and presentation. *)
Theorem C149_loads_partial : forall d w dir name images images' pf sh sh' tokens utr h h' slug b1 b2, supported name -> orders sh -> orders sh' ->
  loaded d dir name images pf sh tokens utr h -> loaded d dir name images' pf sh' tokens utr h' ->
  (forall file root ns, entry_at d dir root name file -> one_claim d dir root ns) -> plain_report h ->
  marshalled_renderable w h slug (Ok (Some b1)) -> marshalled_renderable w h' slug (Ok (Some b2)) ->
  exists s r v1 v2, reads_as b1 v1 /\ reads_as b2 v2 /\
    (the_member v1 "Subject" (subject_value s) /\ the_member v2 "Subject" (subject_value s)) /\
    (the_member v1 "RelationshipSet" (relationship_set r) /\ the_member v2 "RelationshipSet" (relationship_set r)) /\
    (SteadySpec.at_most_one (draws (rsRole r)) (map snd (hPresentation h)) ->
       exists rows members void facts periods,
         presentation_of rows members void facts periods v1 /\ presentation_of rows members void facts periods v2).
Proof.
  intros d w dir name images images' pf sh sh' tokens utr h h' slug b1 b2 S O O' L L' ONE PR M1 M2.
  destruct (loads_alike _ _ _ _ _ _ _ _ _ _ _ _ S L L' ONE) as (AL&I&_&_). pose proof (loads_labels _ _ _ _ _ _ _ _ _ _ _ _ S L L' ONE) as PL.
  pose proof (plain_transfer h h' I PL PR) as PR'.
  destruct (answered w h slug b1 PR M1) as (e&r&nm&p&dg&v1&F&Q&J1&S1&R1&P1&D1&VP1&VD1).
  destruct (answered w h' slug b2 PR' M2) as (e'&r'&nm'&p'&dg'&v2&F'&Q'&J2&S2&R2&P2&D2&VP2&VD2).
  unfold own_insts in F, F'.
  rewrite (same_entities _ _ _ _ _ _ _ _ _ _ _ _ L' L _ _ (Permutation_refl _) (Permutation_refl _)),
    (same_roles _ _ _ _ _ _ _ _ _ _ _ _ L' L _ _ (Permutation_refl _) (Permutation_refl _)) in F'.
  rewrite F in F'. injection F' as <- <-. rewrite Q in Q'. injection Q' as <-.
  exists (Subject nm e), r, v1, v2. split; [exact J1|]. split; [exact J2|]. split; [now split|]. split; [now split|].
  intro A. pose proof (presentation_transfer d dir name images' images pf sh' sh tokens utr w h' h S O' O L' L ONE _ _ _ P2) as P2'.
  pose proof (p_same w h (stringify e) (rsRole r) p p' PR A P1 P2') as SM.
  assert (G : pgLabels (grid_or zero_p p) = pgLabels (grid_or zero_p p') /\ pgPeriods (grid_or zero_p p) = pgPeriods (grid_or zero_p p') /\
    pgMembers (grid_or zero_p p) = pgMembers (grid_or zero_p p') /\ pgVoid (grid_or zero_p p) = pgVoid (grid_or zero_p p') /\
    same_facts (pgFacts (grid_or zero_p p)) (pgFacts (grid_or zero_p p'))).
  { unfold same_p in SM. destruct p as [[[g rs] ls]| |], p' as [[[g' rs'] ls']| |]; cbn in *; try contradiction; auto using same_facts_nil. }
  destruct G as (G1&G2&G3&G4&G5). rewrite <- G1, <- G2, <- G3, <- G4 in VP2.
  assert (X : exists ps, pgPeriods (grid_or zero_p p) = map (fun p => [("Unlabelled", p)]) ps) by (destruct VP1 as (x&(_&ps&E&_)&_); eauto).
  destruct X as (ps&E).
  assert (U : forall qs, pgPeriods (grid_or zero_p p) = map (fun p => [("Unlabelled", p)]) qs -> qs = ps).
  { intros qs E'. rewrite <- (periods_back ps), <- (periods_back qs). congruence. }
  exists (pgLabels (grid_or zero_p p)), (pgMembers (grid_or zero_p p)), (pgVoid (grid_or zero_p p)), (pgFacts (grid_or zero_p p)), ps.
  split; (eapply the_member_impl; [|eassumption]); intros u (A1&qs&E'&B); rewrite (U qs E') in B; (split; [exact A1|]); [exact B|].
  eapply table_shown; eauto.
Qed.
Print Assumptions C149_loads_partial.

(** ... and for what servers send: two servers, or one before and after a restart, whatever they were asked before. *)
Theorem C149_served_partial : forall w detect detect' files files' s s' id slug query query' p p', history w s -> history w s' -> entry_name_ok id ->
  entry_name_ok slug -> slug <> "facts" -> ~ (entry_named w id slug /\ inline_name slug) ->
  (forall name h, report_of w id name h -> plain_report h /\ forall role, SteadySpec.at_most_one (draws role) (map snd (hPresentation h))) ->
  (forall name file root ns, entry_named w id name -> entry_at (w_disk w) (folder_at w id) root name file -> one_claim (w_disk w) (folder_at w id) root ns) ->
  exchanged detect files s "GET" ("/folders/" ++ id ++ "/" ++ slug) query (Answer (Some p)) -> status p = 200 -> body p <> "" ->
  exchanged detect' files' s' "GET" ("/folders/" ++ id ++ "/" ++ slug) query' (Answer (Some p')) -> status p' = 200 -> body p' <> "" ->
  exists v v' rows members void facts periods, reads_as (body p) v /\ reads_as (body p') v' /\
    presentation_of rows members void facts periods v /\ presentation_of rows members void facts periods v'.
Proof.
  intros w detect detect' files files' s s' id slug query query' p p' H H' I J NF NI PR ONE X ST B X' ST' B'.
  destruct (network_sent _ _ _ _ _ _ _ _ H I J NF X ST B) as (name&h&R&M). destruct (network_sent _ _ _ _ _ _ _ _ H' I J NF X' ST' B') as (name'&h'&R'&M').
  pose proof R as [N (im&sh&O&L)]. pose proof R' as [N' (im'&sh'&O'&L')].
  destruct M as [(->&IN&_)|[S M]]; [elim NI; auto|]. destruct M' as [(->&IN&_)|[_ M']]; [elim NI; auto|].
  assert (name' = name) as -> by (eapply one_name; [exact N|exact N']). destruct (PR _ _ R) as [PR0 AM].
  destruct (C149_loads_partial _ _ _ _ _ _ _ _ _ _ _ _ _ _ _ _ S O O' L L' (fun file root ns => ONE name file root ns N) PR0 M M') as (sj&r&v1&v2&J1&J2&_&_&K).
  destruct (K (AM _)) as (rows&members&void&facts&periods&K1&K2). exists v1, v2, rows, members, void, facts, periods. auto.
Qed.
Print Assumptions C149_served_partial.

(** The hypotheses are met: every load of this folder is plain, each of its roles is drawn by one linkbase, its namespace has one
    document, and a network is answered. *)
Lemma two_length {A B} (R : A -> B -> Prop) l l' : Forall2 R l l' -> length l = length l'.
Proof. induction 1; cbn; congruence. Qed.
Lemma noted_plain_report : plain_report noted_report.
Proof.
  assert (L : hLabel noted_report = []) by (vm_compute; reflexivity).
  split.
  - assert (E : length (hInstances noted_report) = 1) by (vm_compute; reflexivity). destruct (hInstances noted_report) as [|[n i] [|? ?]]; try discriminate E. eauto.
  - intro href. rewrite L. constructor.
  - intros n i c t I C T.
    assert (E : forallb (fun x => forallb (fun c => forallb (fun t => Nat.leb (length (tmMap t)) 1) (dcTyped (ctxSegment c) ++ dcTyped (ctxScenario c))%list) (iContexts (snd x))) (hInstances noted_report) = true)
      by (vm_compute; reflexivity).
    rewrite forallb_forall in E. specialize (E _ I). rewrite forallb_forall in E. specialize (E _ C). rewrite forallb_forall in E. specialize (E _ T). now apply Nat.leb_le.
Qed.
Lemma noted_one name file root ns : entry_named (world_with noted_disk noted_outside) "f" name ->
  entry_at noted_disk (folder_at (world_with noted_disk noted_outside) "f") root name file -> one_claim noted_disk (folder_at (world_with noted_disk noted_outside) "f") root ns.
Proof.
  intros (b&_&E) EA. assert (name = "x.xml") as -> by (cbn in E; congruence).
  assert (root = noted_root) as -> by (eapply entry_root; [exact noted_entry|exact EA]). intros x x' C C'.
  change (claims_at noted_disk small_dir noted_root ns x) in C. change (claims_at noted_disk small_dir noted_root ns x') in C'. apply noted_claims in C, C'. congruence.
Qed.
Example C149_served_example : let w := world_with noted_disk noted_outside in exists files s p, history w s /\ entry_name_ok "f" /\
  entry_name_ok pair_slug /\ pair_slug <> "facts" /\ ~ (entry_named w "f" pair_slug /\ inline_name pair_slug) /\
  (forall name h, report_of w "f" name h -> plain_report h /\ forall role, SteadySpec.at_most_one (draws role) (map snd (hPresentation h))) /\
  (forall name file root ns, entry_named w "f" name -> entry_at (w_disk w) (folder_at w "f") root name file -> one_claim (w_disk w) (folder_at w "f") root ns) /\
  exchanged (fun _ => "") files s "GET" ("/folders/f/" ++ pair_slug) "" (Answer (Some p)) /\ status p = 200 /\ body p <> "".
Proof.
  intro w. destruct C164_example as (_&files&s&p&H&I&J&NF&NI&X&ST&B). exists files, s, p. split; [exact H|]. split; [exact I|]. split; [exact J|]. split; [exact NF|]. split; [exact NI|].
  split; [|split; [exact noted_one|auto]].
  intros name h (N&im&sh&O&L). assert (name = "x.xml") as -> by (destruct N as (b&_&E); cbn in E; congruence).
  pose proof (fun file root ns => noted_one _ file root ns N) as ONE.
  destruct (loads_alike _ _ _ _ _ _ _ _ _ _ _ _ x_supported noted_loaded L ONE) as (_&EI&_).
  pose proof (loads_labels _ _ _ _ _ _ _ _ _ _ _ _ x_supported noted_loaded L ONE) as P.
  split; [exact (plain_transfer _ _ EI P noted_plain_report)|]. intro role.
  destruct (presentations_alike _ _ _ _ _ _ _ _ _ _ _ _ x_supported plain_orders O noted_loaded L _ (Permutation_refl _)) as (order&V&F).
  assert (LN : length (map snd (hPresentation h)) = 1).
  { rewrite <- (Permutation_length V), <- (two_length _ _ _ F). vm_compute. reflexivity. }
  destruct (map snd (hPresentation h)) as [|a [|b l]]; try discriminate LN. repeat constructor.
Qed.
