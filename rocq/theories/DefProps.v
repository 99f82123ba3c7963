(** * DefProps: C28-C30, C87-C91 *)
From Verif Require Import GoBase GoSpec GoFacts AttrModel SchemaModel LinkbaseModel InstanceModel InstanceSpec LabelModel LabelSpec LabelProofs
  LabelProps FactModel GridModel GridSpec GridProofs GridProps CalcSpec CalcProofs CalcProps DefModel DefSpec DefProofs.
Local Open Scope string_scope.

(** ** A definition linkbase: one hypercube with two dimensions *)
Definition darc_ (name from to : string) : darc := DArc (num 1) (dim_arcrole name) from to false true "" "".
Definition def_role := "http://e/role/def".
Definition def_locs : list loc :=
  map (fun l => Loc ("t#" ++ l) l) ["A"; "B"; "Cube"; "Region"; "Product"; "World"; "Europe"; "Things"; "Car"].
Definition def_arcs (has : string) : list darc :=
  [darc_ has "A" "Cube"; darc_ "hypercube-dimension" "Cube" "Region"; darc_ "hypercube-dimension" "Cube" "Product";
   darc_ "dimension-domain" "Region" "World"; darc_ "dimension-domain" "Product" "Things";
   darc_ "dimension-default" "Region" "World"; darc_ "dimension-default" "Product" "Things";
   darc_ "domain-member" "World" "Europe"; darc_ "domain-member" "Things" "Car"; darc_ "domain-member" "A" "B"].
Definition def_link (has : string) : link darc := Link def_role def_locs (def_arcs has).
Definition def_lb (has : string) : linkbase darc := Linkbase "d.xml" [RoleRef def_role "e.xsd#def"] [def_link has].
Definition def_href := map_locator_to_href def_role (def_lb "all").
(** as [def_link], with the dimension t#Region only *)
Definition region_link : link darc :=
  Link def_role def_locs
    [darc_ "all" "A" "Cube"; darc_ "hypercube-dimension" "Cube" "Region"; darc_ "dimension-domain" "Region" "World";
     darc_ "dimension-default" "Region" "World"; darc_ "domain-member" "World" "Europe"; darc_ "domain-member" "A" "B"].

(** ** C28 *)
Theorem C28_links :
  forall format_order lbl role order lbs arcs,
    network_links role lbs arcs ->
    Forall2 (link_for format_order role) (arcs_of arcs) (drsLinks (get_drs format_order lbl role order lbs)).
Proof.
  intros fo lbl role order lbs arcs N.
  assert (arcs = net_links role lbs) as ->.
  { assert (U : forall A (P : A -> Prop) l a, those P l a -> forall b, those P l b -> a = b).
    { intros A P l a H. induction H; intros b H'; inversion H'; subst; auto; try contradiction. f_equal. auto. }
    assert (U2 : forall (lb : linkbase darc) a b, links_in role lb a -> links_in role lb b -> a = b).
    { intros lb a b [[D T]|[D ->]] [[D' T']|[D' ->]]; auto; try contradiction. eapply U; eauto. }
    destruct N as (kss & F & ->). destruct (net_links_network role lbs) as (kss' & F' & ->).
    assert (kss = kss') as ->; auto. clear - F F' U2. revert kss' F'. induction F; intros kss' F'; inversion F'; subst; auto.
    f_equal; eauto. }
  cbn [get_drs drsLinks]. rewrite drs_links_eq.
  induction (arcs_of (net_links role lbs)) as [|[lb a] l IH]; cbn [map]; constructor; auto. apply drs_link_for.
Qed.
Print Assumptions C28_links.
Theorem C28_nodes :
  forall format_order lbl role order lbs,
    (forall l, Permutation (order l) l) ->
    let d := get_drs format_order lbl role order lbs in
    (forall h, In h (map lbHref (drsNodes d)) <-> endpoint (drsLinks d) h) /\
    StronglySorted (fun a b => slt (lbHref a) (lbHref b)) (drsNodes d) /\
    (forall n, In n (drsNodes d) -> lbLabel n = lbl (lbHref n)).
Proof.
  intros fo lbl role order lbs PO d. subst d. rewrite drs_nodes_map.
  set (hs := order _).
  assert (P : Permutation hs (drs_hrefs (drs_links fo role lbs))) by apply PO.
  split; [|split].
  - intro h. rewrite in_map_iff. cbn [get_drs drsLinks]. rewrite <- drs_hrefs_In. split.
    + intros (n & <- & Hn). apply isort_in in Hn. apply in_map_iff in Hn. destruct Hn as (x & <- & Hx).
      cbn. eapply Permutation_in; [exact P|exact Hx].
    + intro H. exists (Labelled h (lbl h)). split; auto. apply isort_in. apply in_map_iff. exists h. split; auto.
      eapply Permutation_in; [apply Permutation_sym; exact P|exact H].
  - apply (sorted_strict lbHref). rewrite map_map. cbn. rewrite map_id.
    eapply Permutation_NoDup; [apply Permutation_sym, P|apply drs_hrefs_NoDup].
  - intros n Hn. apply isort_in, in_map_iff in Hn. destruct Hn as (x & <- & _). reflexivity.
Qed.
Print Assumptions C28_nodes.
(** the nodes are the same, and the links the same up to order, in whatever order the maps are iterated *)
Theorem C28_any_order :
  forall format_order lbl role order order' lbs lbs',
    (forall l, Permutation (order l) l) -> (forall l, Permutation (order' l) l) -> Permutation lbs lbs' ->
    let d := get_drs format_order lbl role order lbs in
    let d' := get_drs format_order lbl role order' lbs' in
    drsNodes d = drsNodes d' /\ Permutation (drsLinks d) (drsLinks d').
Proof.
  intros fo lbl role order order' lbs lbs' PO PO' PL d d'.
  assert (LP : Permutation (drsLinks d) (drsLinks d')).
  { subst d d'. cbn [get_drs drsLinks]. unfold drs_links. now apply Permutation_flat_map. }
  split; [|exact LP]. subst d d'.
  destruct (C28_nodes fo lbl role order lbs PO) as (N1 & S1 & L1). destruct (C28_nodes fo lbl role order' lbs' PO') as (N2 & S2 & L2).
  assert (EX : forall n n' : labelled, lbHref n = lbHref n' -> lbLabel n = lbLabel n' -> n = n') by (intros [] []; cbn; congruence).
  apply sorted_perm_unique with (R := fun a b => slt (lbHref a) (lbHref b)); auto.
  - intros x y _ _ A B. exfalso. eapply slt_irrefl, slt_trans; eauto.
  - apply NoDup_Permutation.
    + clear - S1. induction S1 as [|x l S IH F]; constructor; auto. intro H. rewrite Forall_forall in F. specialize (F _ H). now apply slt_irrefl in F.
    + clear - S2. induction S2 as [|x l S IH F]; constructor; auto. intro H. rewrite Forall_forall in F. specialize (F _ H). now apply slt_irrefl in F.
    + assert (EP : forall h, endpoint (drsLinks (get_drs fo lbl role order lbs)) h <-> endpoint (drsLinks (get_drs fo lbl role order' lbs')) h).
      { intro h. unfold endpoint. split; intros (l & Hl & E); exists l; split; auto;
          [eapply Permutation_in; [exact LP|exact Hl]|eapply Permutation_in; [apply Permutation_sym; exact LP|exact Hl]]. }
      intro n. split; intro H.
      * assert (H' := in_map lbHref _ _ H). apply N1, EP, N2 in H'. apply in_map_iff in H'. destruct H' as (n' & E & Hn').
        rewrite (EX n n'); auto. rewrite (L1 n H), (L2 n' Hn'). congruence.
      * assert (H' := in_map lbHref _ _ H). apply N2, EP, N1 in H'. apply in_map_iff in H'. destruct H' as (n' & E & Hn').
        rewrite (EX n n'); auto. rewrite (L2 n H), (L1 n' Hn'). congruence.
Qed.
Print Assumptions C28_any_order.
Example C28_example :
  network_links def_role [def_lb "all"] [(def_lb "all", def_link "all")] /\
  let d := get_drs (fun _ => "1") sample_label def_role (@rev string) [def_lb "all"] in
  List.length (drsLinks d) = 10 /\
  map lbHref (drsNodes d) = ["t#A"; "t#B"; "t#Car"; "t#Cube"; "t#Europe"; "t#Product"; "t#Region"; "t#Things"; "t#World"].
Proof.
  split; [apply (net_links_network def_role [def_lb "all"])|]. vm_compute. auto.
Qed.

(** ** C87. In the relationship set only dimension-default arcs are shown as default *)
Theorem C87_refuted :
  ~ (forall format_order lbl role order lbs arcs,
       network_links role lbs arcs ->
       Forall2 (fun x l => forall c, dlDD l = Some c -> (ddDefault c = true <-> daArcrole (snd x) = dim_arcrole "dimension-default"))
         (arcs_of arcs) (drsLinks (get_drs format_order lbl role order lbs))).
Proof.
  intro H. specialize (H (fun _ => "1") sample_label def_role (fun l => l) [def_lb "all"] _ (net_links_network def_role _)).
  vm_compute in H.
  do 3 (match goal with H : Forall2 _ (_ :: _) _ |- _ => inversion H; clear H; subst end).
  match goal with H : Forall2 _ (_ :: _) _ |- _ => inversion H as [|? ? ? ? K]; subst end.
  specialize (K _ eq_refl). destruct K as [K _]. specialize (K eq_refl). discriminate K.
Qed.
Print Assumptions C87_refuted.
(** what holds: a dimension-default arc is shown as a usable default, and an arc shown as default
    is a dimension-default or a dimension-domain arc *)
Theorem C87_defaults_partial :
  forall format_order lbl role order lbs arcs,
    network_links role lbs arcs ->
    Forall2 (fun x l =>
        (daArcrole (snd x) = dim_arcrole "dimension-default" ->
           dlDD l = Some (DD (format_order (daOrder (snd x))) true true (daTargetRole (snd x)))) /\
        (forall c, dlDD l = Some c -> ddDefault c = true ->
           daArcrole (snd x) = dim_arcrole "dimension-default" \/ daArcrole (snd x) = dim_arcrole "dimension-domain"))
      (arcs_of arcs) (drsLinks (get_drs format_order lbl role order lbs)).
Proof.
  intros fo lbl role order lbs arcs N. eapply Forall2_weaken; [|apply (C28_links _ lbl _ order _ _ N)].
  intros [lb a] l (_ & _ & c & CF & CB). cbn [snd]. split.
  - intro E. destruct CF as [X|X|X|d X|X|X|X]; try (rewrite E in X; discriminate X); [|exfalso; apply X; rewrite E; cbn; tauto].
    apply CB.
  - intros x Hx D. destruct CF as [X|X|X|d X|X|X|X]; cbn in CB; destruct CB as (C1 & C2 & C3 & C4);
      try (rewrite C3 in Hx; discriminate Hx); auto.
Qed.
Print Assumptions C87_defaults_partial.

(** ** C29 *)
Theorem C29_sorted :
  forall href_of lbl w item dim,
    StronglySorted em_before (fst (get_effective_domain href_of lbl w item dim)) /\
    forall e, In e (fst (get_effective_domain href_of lbl w item dim)) -> emLabel e = lbl (emHref e).
Proof. intros. apply effective_domain_strict. Qed.
Print Assumptions C29_sorted.
Theorem C29_contradictory :
  forall href_of lbl w item dim hc,
    cube_for href_of (nwInclusive w) (nwHcDim w) item dim hc ->
    cube_for href_of (nwExclusive w) (nwHcDim w) item dim hc ->
    fst (get_effective_domain href_of lbl w item dim) = [].
Proof.
  intros href_of lbl w item dim hc H1 H2. unfold get_effective_domain. cbv zeta.
  assert (X : existsb (fun h => mem String.eqb h (hypercube_hrefs href_of (nwExclusive w) (nwHcDim w) item dim))
                (hypercube_hrefs href_of (nwInclusive w) (nwHcDim w) item dim) = true).
  { apply existsb_exists. exists hc. split; [now apply hypercube_hrefs_In|].
    apply (mem_In String.eqb seqP). now apply hypercube_hrefs_In. }
  now rewrite X.
Qed.
Print Assumptions C29_contradictory.
(** an item without a hypercube for the dimension has no domain *)
Theorem C29_no_hypercube :
  forall href_of lbl w item dim,
    (forall hc, ~ cube_for href_of (nwInclusive w) (nwHcDim w) item dim hc) ->
    (forall hc, ~ cube_for href_of (nwExclusive w) (nwHcDim w) item dim hc) ->
    fst (get_effective_domain href_of lbl w item dim) = [].
Proof.
  intros href_of lbl w item dim H1 H2. unfold get_effective_domain. cbv zeta.
  assert (E1 : hypercube_hrefs href_of (nwInclusive w) (nwHcDim w) item dim = []).
  { destruct (hypercube_hrefs _ (nwInclusive w) _ _ _) as [|h l] eqn:E; auto. exfalso. apply (H1 h), hypercube_hrefs_In. rewrite E. now left. }
  assert (E2 : hypercube_hrefs href_of (nwExclusive w) (nwHcDim w) item dim = []).
  { destruct (hypercube_hrefs _ (nwExclusive w) _ _ _) as [|h l] eqn:E; auto. exfalso. apply (H2 h), hypercube_hrefs_In. rewrite E. now left. }
  rewrite E1, E2. cbn [existsb]. rewrite included_defaults_eq.
  assert (D : forall keep, default_visits href_of (nwHcDim w) (nwDimDefault w) keep [] = []).
  { intro. unfold default_visits. induction (ra_children (nwHcDim w)); auto. }
  rewrite D. cbn [foldO]. unfold excluded_defaults.
  assert (X : foldO (fun st (x : rarc) => foldO (fun st h => if String.eqb h (href_of (ra_locator x)) then
      foldO (fun st d => if mem String.eqb (href_of (ra_locator d)) (esSeen st) then Some st
         else foldO (add_default href_of lbl true) (ra_children d) st) (ra_children (nwDimDefault w)) st else Some st) [] st)
      (ra_children (nwHcDim w)) (EDState [] (esRet (EDState [] [] [])) (esPacks (EDState [] [] []))) = Some (EDState [] [] [])).
  { induction (ra_children (nwHcDim w)); auto. }
  rewrite X. rewrite !add_members_eq.
  assert (M : member_visits href_of (nwHcDim w) (nwDimDomain w) (nwDomains w) dim [] = []).
  { unfold member_visits. induction (ra_children (nwHcDim w)); auto. }
  now rewrite M.
Qed.
Print Assumptions C29_no_hypercube.
Definition sample_networks (k : link darc) : networks := snd (link_networks sample_tree k).
Definition shape_of (l : list effective_member) := map (fun e => (emHref e, emDefault e, emStruck e)) l.
Example C29_example :
  shape_of (fst (get_effective_domain def_href sample_label (sample_networks region_link) "t#A" "t#Region")) =
    [("t#Europe", false, false); ("t#World", true, false); ("t#World", false, false)] /\
  (let both := Link def_role def_locs (darc_ "notAll" "A" "Cube" :: def_arcs "all") in
   cube_for def_href (nwInclusive (sample_networks both)) (nwHcDim (sample_networks both)) "t#A" "t#Region" "t#Cube" /\
   cube_for def_href (nwExclusive (sample_networks both)) (nwHcDim (sample_networks both)) "t#A" "t#Region" "t#Cube").
Proof.
  split; [vm_compute; reflexivity|]. cbv zeta. split; apply hypercube_hrefs_In; vm_compute; auto.
Qed.

(** ** C88. What an effective domain is made of *)
Lemma sample_tree_faithful : faithful_tree sample_tree.
Proof.
  intros arcs role. unfold sample_tree. cbn [ra_children].
  set (mine := filter (fun a => String.eqb (arArcrole a) role) arcs).
  set (tops := uniq String.eqb _).
  assert (MI : forall a, In a mine <-> In a arcs /\ arArcrole a = role)
    by (intro a; unfold mine; rewrite filter_In, String.eqb_eq; tauto).
  assert (TI : forall s, In s tops <-> (exists a, In a mine /\ arFrom a = s) /\ forall a, In a mine -> arTo a <> s).
  { intro s. unfold tops. rewrite (uniq_In String.eqb seqP), in_map_iff. split.
    - intros (a & <- & H). apply filter_In in H. destruct H as [Ha H]. split; [now exists a|].
      intros b Hb E. apply negb_true_iff in H. assert (X : existsb (fun b => String.eqb (arTo b) (arFrom a)) mine = true)
        by (apply existsb_exists; exists b; split; auto; now apply String.eqb_eq). congruence.
    - intros [(a & Ha & <-) N]. exists a. split; auto. apply filter_In. split; auto. apply negb_true_iff.
      destruct (existsb _ _) eqn:E; auto. apply existsb_exists in E. destruct E as (b & Hb & E). apply String.eqb_eq in E.
      now apply N in E. }
  assert (GR : forall s, ra_locator (grow (List.length mine) mine s (S754_zero false)) = s) by (intro s; now destruct (List.length mine)).
  assert (CH : forall s g, In s tops -> (In g (map ra_locator (ra_children (grow (List.length mine) mine s (S754_zero false)))) <->
                              exists a, In a mine /\ arFrom a = s /\ arTo a = g)).
  { intros s g Hs. apply TI in Hs. destruct Hs as [(a0 & Ha0 & _) _]. destruct (List.length mine) as [|n] eqn:L.
    { destruct mine; [contradiction|discriminate]. }
    cbn [grow ra_children]. rewrite map_map, in_map_iff. split.
    - intros (a & E & Ha). apply filter_In in Ha. destruct Ha as [Ha E2]. apply String.eqb_eq in E2. exists a. split; auto.
      split; auto. destruct n; exact E.
    - intros (a & Ha & E & E2). exists a. split; [destruct n; exact E2|]. apply filter_In. split; auto. now apply String.eqb_eq. }
  split; [|split].
  - rewrite map_map. rewrite (map_ext _ (fun s => s) GR), map_id. apply (uniq_NoDup String.eqb seqP).
  - intros c Hc. apply in_map_iff in Hc. destruct Hc as (s & <- & Hs). assert (Hs' := Hs). apply TI in Hs'.
    destruct Hs' as [(a & Ha & E) _].
    assert (X : In (arTo a) (map ra_locator (ra_children (grow (List.length mine) mine s (S754_zero false))))) by (apply CH; auto; now exists a).
    apply in_map_iff in X. destruct X as (g & _ & Hg). now exists g.
  - intros s t. unfold top_arc. split.
    + intros [(a & Ha & R & E1 & E2) N].
      assert (Hs : In s tops) by (apply TI; split; [exists a; split; auto; apply MI; auto|intros b Hb; apply MI in Hb; apply N; tauto]).
      assert (X : In t (map ra_locator (ra_children (grow (List.length mine) mine s (S754_zero false))))) by (apply CH; auto; exists a; split; auto; apply MI; auto).
      apply in_map_iff in X. destruct X as (g & Eg & Hg). eexists. exists g. split; [apply in_map; exact Hs|]. auto.
    + intros (c & g & Hc & Hg & Ec & Eg). apply in_map_iff in Hc. destruct Hc as (s' & <- & Hs). rewrite GR in Ec. subst s'.
      assert (X : In t (map ra_locator (ra_children (grow (List.length mine) mine s (S754_zero false))))) by (rewrite <- Eg; now apply in_map).
      apply CH in X; auto. destruct X as (a & Ha & E1 & E2). split; [exists a; apply MI in Ha; tauto|].
      intros b Hb R. apply TI in Hs. apply Hs. apply MI; auto.
Qed.

(** Refuted: it has members of the domains of other dimensions *)
Theorem C88_other_dimension_refuted :
  ~ (forall tree href_of lbl k item dim e,
       faithful_tree tree ->
       let w := snd (link_networks tree k) in
       In e (fst (get_effective_domain href_of lbl w item dim)) -> emDefault e = false ->
       exists r n, In r (nwDomains w) /\ edge href_of (nwDimDomain w) dim (href_of (ra_locator r)) /\
                   node_of r n /\ href_of (ra_locator n) = emHref e).
Proof.
  intro H. specialize (H sample_tree def_href sample_label (def_link "all") "t#A" "t#Region"
                         (EM "t#Car" (sample_label "t#Car") false false) sample_tree_faithful).
  cbv zeta in H. destruct H as (r & n & Hr & Ed & Hn & E); [vm_compute; auto|reflexivity|].
  assert (Hr' : r = grow 3 [Arc DomainMemberArcrole (num 1) "World" "Europe"; Arc DomainMemberArcrole (num 1) "Things" "Car";
                           Arc DomainMemberArcrole (num 1) "A" "B"] "World" (S754_zero false) \/
                r = grow 3 [Arc DomainMemberArcrole (num 1) "World" "Europe"; Arc DomainMemberArcrole (num 1) "Things" "Car";
                           Arc DomainMemberArcrole (num 1) "A" "B"] "Things" (S754_zero false)).
  { vm_compute in Hr. destruct Hr as [<-|[<-|[]]]; [left|right]; vm_compute; reflexivity. }
  destruct Hr' as [-> | ->].
  - assert (NH : In (emHref (EM "t#Car" (sample_label "t#Car") false false))
       (forest_hrefs def_href [grow 3 [Arc DomainMemberArcrole (num 1) "World" "Europe"; Arc DomainMemberArcrole (num 1) "Things" "Car";
                           Arc DomainMemberArcrole (num 1) "A" "B"] "World" (S754_zero false)])).
    { rewrite <- E. unfold forest_hrefs. apply in_map. cbn [flat_map]. rewrite app_nil_r. now apply node_locators. }
    vm_compute in NH. destruct NH as [NH|[NH|[]]]; discriminate NH.
  - destruct Ed as (n' & c & Hn' & E1 & Hc & E2). vm_compute in Hn'.
    destruct Hn' as [<-|[<-|[]]]; [|vm_compute in E1; discriminate E1].
    vm_compute in Hc. destruct Hc as [<-|[]]. vm_compute in E2. discriminate E2.
Qed.
Print Assumptions C88_other_dimension_refuted.
(** Refuted: an excluded domain has the defaults of other dimensions *)
Theorem C88_other_default_refuted :
  ~ (forall tree href_of lbl k item dim e,
       faithful_tree tree ->
       let w := snd (link_networks tree k) in
       In e (fst (get_effective_domain href_of lbl w item dim)) -> emDefault e = true ->
       edge href_of (nwDimDefault w) dim (emHref e)).
Proof.
  intro H. specialize (H sample_tree def_href sample_label (def_link "notAll") "t#A" "t#Region"
                         (EM "t#Things" (sample_label "t#Things") true true) sample_tree_faithful).
  cbv zeta in H. destruct H as (n & c & Hn & En & Hc & Ec); [vm_compute; tauto|reflexivity|].
  vm_compute in Hn. destruct Hn as [<-|[<-|[]]]; [|vm_compute in En; discriminate En].
  vm_compute in Hc. destruct Hc as [<-|[]]. vm_compute in Ec. discriminate Ec.
Qed.
Print Assumptions C88_other_default_refuted.
(** Refuted: an item does not inherit the hypercubes of the items above it *)
Theorem C88_inheritance_refuted :
  ~ (forall tree href_of lbl k item below dim,
       faithful_tree tree ->
       let w := snd (link_networks tree k) in
       edge href_of (tree (drawn_arcs (lArcs k)) (dim_arcrole "domain-member")) item below ->
       fst (get_effective_domain href_of lbl w item dim) <> [] ->
       fst (get_effective_domain href_of lbl w below dim) <> []).
Proof.
  intro H. specialize (H sample_tree def_href sample_label region_link "t#A" "t#B" "t#Region" sample_tree_faithful).
  cbv zeta in H. apply H; [|vm_compute; discriminate|vm_compute; reflexivity].
  eexists. eexists. split; [right; left; reflexivity|]. split; [vm_compute; reflexivity|]. split; [left; reflexivity|]. vm_compute; reflexivity.
Qed.
Print Assumptions C88_inheritance_refuted.
(** What holds for an item with a hypercube of its own, if no concept is repeated *)
Theorem C88_entries_partial :
  forall href_of lbl w item dim,
    tidy href_of (nwDimDomain w) -> tidy href_of (nwExclusive w) -> tidy href_of (nwInclusive w) ->
    tidy href_of (nwHcDim w) -> tidy href_of (nwDimDefault w) ->
    NoDup (forest_hrefs href_of (nwDomains w)) ->
    NoDup (all_defaults href_of (nwDimDefault w)) ->
    (forall d, In d (ra_children (nwDimDefault w)) -> ~ In (href_of (ra_locator d)) (all_defaults href_of (nwDimDefault w))) ->
    (forall d, In d (ra_children (nwDimDomain w)) -> ra_children d <> []) ->
    (forall h h', cube_for href_of (nwInclusive w) (nwHcDim w) item dim h -> cube_for href_of (nwInclusive w) (nwHcDim w) item dim h' -> h = h') ->
    (forall h h', cube_for href_of (nwExclusive w) (nwHcDim w) item dim h -> cube_for href_of (nwExclusive w) (nwHcDim w) item dim h' -> h = h') ->
    ~ (exists hc, cube_for href_of (nwInclusive w) (nwHcDim w) item dim hc /\ cube_for href_of (nwExclusive w) (nwHcDim w) item dim hc) ->
    forall e, In e (fst (get_effective_domain href_of lbl w item dim)) <-> in_domain href_of lbl w item dim e.
Proof. intros. now apply effective_domain_exact. Qed.
Print Assumptions C88_entries_partial.
Ltac no_dup := vm_compute; repeat constructor; cbn; intuition discriminate.
Ltac each H := vm_compute in H; repeat (destruct H as [<-|H]); try contradiction.
Example C88_example :
  let w := sample_networks (Link def_role def_locs (def_arcs "all")) in
  tidy def_href (nwDimDomain w) /\ tidy def_href (nwExclusive w) /\ tidy def_href (nwInclusive w) /\
  tidy def_href (nwHcDim w) /\ tidy def_href (nwDimDefault w) /\
  NoDup (forest_hrefs def_href (nwDomains w)) /\ NoDup (all_defaults def_href (nwDimDefault w)) /\
  (forall d, In d (ra_children (nwDimDefault w)) -> ~ In (def_href (ra_locator d)) (all_defaults def_href (nwDimDefault w))) /\
  (forall d, In d (ra_children (nwDimDomain w)) -> ra_children d <> []) /\
  (forall h, cube_for def_href (nwInclusive w) (nwHcDim w) "t#A" "t#Region" h <-> h = "t#Cube") /\
  (forall h, ~ cube_for def_href (nwExclusive w) (nwHcDim w) "t#A" "t#Region" h) /\
  shape_of (fst (get_effective_domain def_href sample_label w "t#A" "t#Region")) =
    [("t#Car", false, false); ("t#Europe", false, false); ("t#Things", false, false); ("t#World", true, false); ("t#World", false, false)].
Proof.
  cbv zeta.
  do 5 (split; [split; [no_dup|intros n Hn; each Hn; no_dup]|]).
  split; [no_dup|]. split; [no_dup|].
  split; [intros d Hd; each Hd; vm_compute; intuition discriminate|].
  split; [intros d Hd; each Hd; discriminate|].
  split; [intro h; rewrite <- hypercube_hrefs_In; vm_compute; split; [intros [<-|[]]; reflexivity|intros ->; auto]|].
  split; [intro h; rewrite <- hypercube_hrefs_In; vm_compute; tauto|].
  vm_compute. reflexivity.
Qed.

(** ** C30 *)
Theorem C30_split :
  forall tree k primary w,
    link_networks tree k = (primary, w) ->
    let net name := tree (drawn_arcs (lArcs k)) (dim_arcrole name) in
    let domain n := arc_target (net "dimension-domain") n \/ arc_target (net "dimension-default") n in
    those (fun n => ~ domain n) (ra_children (net "domain-member")) primary /\
    those domain (ra_children (net "domain-member")) (nwDomains w).
Proof.
  intros tree k primary w E net domain. unfold link_networks, split_networks in E. injection E as <- <-.
  cbn [nwDomains].
  assert (K : forall n, mem String.eqb (ra_locator n) (hypercube_domains (net "dimension-domain") (net "dimension-default")) = true <-> domain n).
  { intro n. rewrite (mem_In String.eqb seqP). apply hypercube_domains_In. }
  split; apply those_filter; auto. intro n. rewrite <- K.
  change (net "dimension-domain") with (tree (drawn_arcs (lArcs k)) DimensionDomainArcrole).
  change (net "dimension-default") with (tree (drawn_arcs (lArcs k)) DimensionDefaultArcrole).
  destruct (mem _ _ _); split; intro; auto; try discriminate; try tauto; try congruence.
Qed.
Print Assumptions C30_split.
(** every root is in one of the two and in one only *)
Theorem C30_without_loss :
  forall tree k primary w,
    link_networks tree k = (primary, w) ->
    let roots := ra_children (tree (drawn_arcs (lArcs k)) (dim_arcrole "domain-member")) in
    Permutation roots (primary ++ nwDomains w) /\ (forall n, In n primary -> ~ In n (nwDomains w)).
Proof.
  intros tree k primary w E roots. destruct (C30_split _ _ _ _ E) as [A B]. subst roots.
  set (domain := fun n => _ \/ _) in B.
  assert (IN : forall (P : rarc -> Prop) l l', those P l l' -> forall x, In x l' -> P x).
  { intros P l l' T. induction T; cbn; [tauto| |auto]. intros y [<-|Hy]; auto. }
  split.
  - assert (PM : forall l a b, those (fun n => ~ domain n) l a -> those domain l b -> Permutation l (a ++ b)).
    { intros l a b TA. revert b. induction TA; intros b TB; inversion TB; subst; try contradiction.
      - constructor.
      - cbn. constructor. auto.
      - apply Permutation_cons_app. auto. }
    now apply PM.
  - intros n H1 H2. apply (IN _ _ _ A n H1). now apply (IN _ _ _ B n).
Qed.
Print Assumptions C30_without_loss.
Example C30_example :
  map ra_locator (fst (link_networks sample_tree (def_link "all"))) = ["A"] /\
  map ra_locator (nwDomains (sample_networks (def_link "all"))) = ["World"; "Things"].
Proof. vm_compute. auto. Qed.

(** ** C89. Root domains: one for each primary-item root of each link of the role, in order *)
Theorem C89_root_domains :
  forall tree lbl concept_of genv dims_order entity role lbs rds roles langs,
    (forall lb k, In lb lbs -> In k (lbLinks lb) ->
       orders_are_numbers (tree (drawn_arcs (lArcs k)) (dim_arcrole "domain-member"))) ->
    get_root_domains tree lbl concept_of genv dims_order entity role lbs = Ok (rds, roles, langs) ->
    exists roots, network_roots tree role lbs roots /\
      Forall2 (fun x rd =>
        let '(lb, k, root) := x in
        locates lb role (ra_locator root) (rdHref rd) /\ rdLabel rd = lbl (rdHref rd) /\
        lists_items lbl role lb root (rdItems rd) /\
        (* the effective domain of each item and dimension *)
        exists primary w, link_networks tree k = (primary, w) /\
          Forall2 (fun item => Forall2 (fun dim d =>
              d = fst (get_effective_domain (map_locator_to_href role lb) lbl w item (lbHref dim))) (rdDimensions rd))
            (rdHref rd :: map ilHref (rdItems rd)) (rdDomains rd)) roots rds.
Proof.
  intros tree lbl concept_of genv dims_order entity role lbs rds roles langs HN E.
  apply root_domains_built in E. exists (net_roots tree role lbs). split; [apply net_roots_network|].
  assert (HR : forall lb k root, In (lb, k, root) (net_roots tree role lbs) -> orders_are_numbers root).
  { intros lb k root H. unfold net_roots in H. apply in_flat_map in H. destruct H as (lk & Hlk & H).
    apply in_map_iff in H. destruct H as (r & [= -> <-] & Hr). cbn [snd] in Hr. unfold link_networks, split_networks in Hr. cbn [fst] in Hr.
    apply filter_In in Hr. apply in_flat_map in Hlk. destruct Hlk as (lb' & Hlb & Hlk). apply in_map_iff in Hlk.
    destruct Hlk as (k' & [= -> ->] & Hk). unfold role_links in Hk. destruct (existsb _ _); [|contradiction].
    apply filter_In in Hk. intros n Hn. apply (HN lb k Hlb (proj1 Hk)). eapply node_below; [exact (proj1 Hr)|exact Hn]. }
  clear HN. induction E as [|lb k root l i rd rds B _ IH]; constructor.
  - assert (ON : orders_are_numbers root) by (eapply HR; now left).
    destruct B as (E1 & E2 & E3 & E4 & E5 & _). split; [rewrite E1; apply locates_fun|]. split; [exact E2|].
    split; [rewrite E3; now apply listing_items|].
    exists (fst (link_networks tree k)), (snd (link_networks tree k)). split; [now destruct (link_networks tree k)|].
    rewrite E5, E4. generalize (rdHref rd :: map ilHref (rdItems rd)). intro rows.
    induction rows as [|x rows IHr]; cbn [map]; constructor; auto.
    generalize (dimension_hrefs role (lArcs k) (dims_order lb k)). intro ds. induction ds as [|d ds IHd]; cbn [map]; constructor; auto.
  - apply IH. intros lb' k' r' H. eapply HR. right. exact H.
Qed.
Print Assumptions C89_root_domains.
(** their columns, facts, footnotes and dimension rows are those of a grid with the root and
    its items as rows; C14-C22 say what these are *)
Theorem C89_root_domain_grid :
  forall tree lbl concept_of genv dims_order entity role lbs rds roles langs i rd,
    get_root_domains tree lbl concept_of genv dims_order entity role lbs = Ok (rds, roles, langs) ->
    nth_error rds i = Some rd ->
    let rows := rdHref rd :: map ilHref (rdItems rd) in
    let g := genv i in
    exists cols seg scen packs shown,
      get_relevant_contexts tree lbl concept_of (ge_typed_order g) entity (ge_instances g) rows
        = Ok (cols, seg, scen, packs) /\
      rdPeriods rd = map rcPeriod cols /\
      get_factual_quadrant tree (ge_cell g) (ge_id_order g) (ge_id_order_final g) rows cols shown
        = Ok (rdFacts rd, rdFootnoteGrid rd, rdFootnotes rd) /\
      get_member_grid (ge_member_order g) cols seg scen = Ok (rdMembers rd, rdVoid rd).
Proof.
  intros tree lbl concept_of genv dims_order entity role lbs rds roles langs i rd E Hi.
  apply root_domains_built, built_all_nth in E. destruct E as [L H].
  assert (X : exists x, nth_error (net_roots tree role lbs) i = Some x).
  { destruct (nth_error (net_roots tree role lbs) i) eqn:E; [eauto|]. apply nth_error_None in E.
    assert (i < List.length rds) by (apply nth_error_Some; congruence). lia. }
  destruct X as [[[lb k] root] X]. specialize (H _ _ _ _ _ X Hi). cbn [Nat.add] in H. apply H.
Qed.
Print Assumptions C89_root_domain_grid.
Definition def_concept (h : string) : option concept :=
  Some (Concept (XName "t" h) h (XName "x" "stringItemType") (XName "" "") false "duration" "" false "").
Definition def_instance : instance :=
  Instance "i.xml" [plain_context "c1" "2020-01-01" "2020-12-31" no_dims] [] []
    [Fact "t#A" "f1" "c1" "" Precisionless false "12"; Fact "t#B" "f2" "c1" "" Precisionless false "3"].
Definition def_renv : renv := REnv def_concept (fun _ => (None, None)) (fun _ => []) (fun _ _ _ => None) (fun _ => None).
Definition def_genv (_ : nat) : grid_env :=
  GridEnv [def_instance] in_document_order (fun l => l)
    (fun _ _ => CellEnv [def_instance] [def_instance] [def_instance] def_renv) (fun _ _ l => l) (fun l => l) (fun x => x).
Definition sample_roots (lbs : list (linkbase darc)) lbl :=
  get_root_domains sample_tree lbl def_concept def_genv (fun _ _ => lbs) "http://cik/0001" def_role lbs.
Lemma grow_numbers fuel arcs : (forall a, In a arcs -> arOrder a <> S754_nan) ->
  forall l o, o <> S754_nan -> orders_are_numbers (grow fuel arcs l o).
Proof.
  intro HA. induction fuel as [|n IH]; intros l o Ho m Hm; apply node_of_inv in Hm; destruct Hm as [->|(c & Hc & Hm)]; try exact Ho.
  - destruct Hc.
  - cbn [grow ra_children] in Hc. apply in_map_iff in Hc. destruct Hc as (a & <- & Ha). apply filter_In in Ha.
    apply (IH (arTo a) (arOrder a)); auto. apply HA. apply Ha.
Qed.
Lemma sample_tree_numbers arcs role : (forall a, In a arcs -> arOrder a <> S754_nan) -> orders_are_numbers (sample_tree arcs role).
Proof.
  intros HA m Hm. apply node_of_inv in Hm. destruct Hm as [->|(c & Hc & Hm)]; [discriminate|].
  cbn [sample_tree ra_children] in Hc. apply in_map_iff in Hc. destruct Hc as (s & <- & _).
  eapply grow_numbers in Hm; [exact Hm| |discriminate]. intros a Ha. apply filter_In in Ha. now apply HA.
Qed.
Example C89_example :
  (forall lb k, In lb [def_lb "all"] -> In k (lbLinks lb) ->
     orders_are_numbers (sample_tree (drawn_arcs (lArcs k)) (dim_arcrole "domain-member"))) /\
  exists rd roles langs, sample_roots [def_lb "all"] sample_label = Ok ([rd], roles, langs) /\
    rdHref rd = "t#A" /\ map ilHref (rdItems rd) = ["t#B"] /\ map lbHref (rdDimensions rd) = ["t#Region"; "t#Product"] /\
    map (map (fun d => map emHref d)) (rdDomains rd) =
      [[["t#Car"; "t#Europe"; "t#Things"; "t#World"; "t#World"]; ["t#Car"; "t#Europe"; "t#Things"; "t#Things"; "t#World"]];
       [[]; []]].
Proof.
  split.
  - intros lb k [<-|[]] [<-|[]]. apply sample_tree_numbers. intros a Ha. vm_compute in Ha.
    repeat (destruct Ha as [<-|Ha]; [intro X; vm_compute in X; discriminate X|]). contradiction.
  - vm_compute. do 3 eexists. split; [reflexivity|]. vm_compute. auto.
Qed.

(** ** C90. The dimensions of a root domain are those of the hypercubes of its link *)
(** a second definition linkbase, without the role *)
Definition other_lb : linkbase darc := Linkbase "e.xml" [] [].
Theorem C90_refuted :
  ~ (forall tree lbl concept_of genv dims_order entity role lbs rds roles langs,
       (forall lb k, Permutation (dims_order lb k) lbs) ->
       get_root_domains tree lbl concept_of genv dims_order entity role lbs = Ok (rds, roles, langs) ->
       forall rd d, In rd rds -> In d (rdDimensions rd) ->
         exists lb k, In lb lbs /\ In k (lbLinks lb) /\ dimension_of role lb k (lbHref d)).
Proof.
  intro H.
  assert (E : exists rd roles langs, sample_roots [def_lb "all"; other_lb] sample_label = Ok ([rd], roles, langs) /\
                map lbHref (rdDimensions rd) = ["t#Region"; "t#Product"; "#Region"; "#Product"])
    by (vm_compute; do 3 eexists; split; [reflexivity|]; vm_compute; auto).
  destruct E as (rd & roles & langs & E & D).
  assert (X : exists d, In d (rdDimensions rd) /\ lbHref d = "#Region").
  { assert (I : In "#Region" (map lbHref (rdDimensions rd))) by (rewrite D; cbn; tauto).
    apply in_map_iff in I. destruct I as (d & A & B). eauto. }
  destruct X as (d & Hd & Ed).
  destruct (H _ _ _ _ _ _ _ _ _ _ _ (fun _ _ => Permutation_refl _) E rd d (or_introl eq_refl) Hd) as (lb & k & Hlb & Hk & a & Ha & R & L).
  rewrite Ed in L. destruct Hlb as [<-|[<-|[]]]; [|contradiction]. destruct Hk as [<-|[]].
  apply locates_eq in L.
  vm_compute in Ha. repeat (destruct Ha as [<-|Ha]; [vm_compute in R, L; discriminate|]). contradiction.
Qed.
Print Assumptions C90_refuted.
(** with one definition linkbase, exactly those; each once and with its label *)
Theorem C90_one_linkbase_partial :
  forall tree lbl concept_of genv dims_order entity role lb rds roles langs,
    (forall lb' k, Permutation (dims_order lb' k) [lb]) ->
    get_root_domains tree lbl concept_of genv dims_order entity role [lb] = Ok (rds, roles, langs) ->
    exists roots, network_roots tree role [lb] roots /\
      Forall2 (fun x rd =>
        let '(_, k, _) := x in
        NoDup (map lbHref (rdDimensions rd)) /\
        (forall h, In h (map lbHref (rdDimensions rd)) <-> dimension_of role lb k h) /\
        (forall d, In d (rdDimensions rd) -> lbLabel d = lbl (lbHref d))) roots rds.
Proof.
  intros tree lbl concept_of genv dims_order entity role lb rds roles langs PD E.
  apply root_domains_built in E. exists (net_roots tree role [lb]). split; [apply net_roots_network|].
  induction E as [|lb' k root l i rd rds B _ IH]; constructor; auto.
  destruct B as (_ & _ & _ & E4 & _). rewrite E4, map_map. cbn [lbHref]. rewrite map_id. split; [apply dimension_hrefs_NoDup|].
  split.
  - intro h. rewrite dimension_hrefs_In. split.
    + intros (lb2 & H2 & D). assert (X : In lb2 [lb]) by (eapply Permutation_in; [apply (PD lb' k)|exact H2]).
      destruct X as [->|[]]. exact D.
    + intro D. exists lb. split; auto. eapply Permutation_in; [apply Permutation_sym, (PD lb' k)|now left].
  - intros d Hd. apply in_map_iff in Hd. destruct Hd as (h & <- & _). reflexivity.
Qed.
Print Assumptions C90_one_linkbase_partial.

(** ** C91. The label roles of a definition grid include those of every label it shows *)
(** t#Europe has a terse label, the other concepts have only the default one *)
Definition europe_labels : list label_linkbase :=
  [LabelLinkbase "l.xml" []
     [LabelLink "http://www.xbrl.org/2003/role/link" [Loc "t#Europe" "a"]
        [LabelElem "z" "http://www.xbrl.org/2003/role/terseLabel" "en-US" "EU"]
        [LArc (num 1) "http://www.xbrl.org/2003/arcrole/concept-label" "a" "z"]]].
Theorem C91_refuted :
  ~ (forall tree labels concept_of genv dims_order entity role lbs rds roles langs,
       get_root_domains tree (get_label labels) concept_of genv dims_order entity role lbs = Ok (rds, roles, langs) ->
       forall rd row domain e r, In rd rds -> In row (rdDomains rd) -> In domain row -> In e domain ->
         has_role r (emLabel e) -> In r roles).
Proof.
  intro H.
  assert (E : exists rd roles langs, sample_roots [def_lb "all"] (get_label europe_labels) = Ok ([rd], roles, langs) /\
     ~ In "Terse" roles /\ exists row domain e, In row (rdDomains rd) /\ In domain row /\ In e domain /\ has_role "Terse" (emLabel e)).
  { vm_compute. do 3 eexists. split; [reflexivity|]. split; [intuition discriminate|].
    vm_compute. do 3 eexists. split; [left; reflexivity|]. split; [left; reflexivity|]. split; [right; left; reflexivity|].
    vm_compute. tauto. }
  destruct E as (rd & roles & langs & E & N & row & domain & e & H1 & H2 & H3 & H4).
  apply N. eapply H; eauto. now left.
Qed.
Print Assumptions C91_refuted.
(** those of the root, the items and the dimensions *)
Theorem C91_roles_partial :
  forall tree labels concept_of genv dims_order entity role lbs rds roles langs,
    (forall n x, Permutation (fst (ge_destruct (genv n) x)) (fst x)) ->
    get_root_domains tree (get_label labels) concept_of genv dims_order entity role lbs = Ok (rds, roles, langs) ->
    forall rd h r, In rd rds ->
      h = rdHref rd \/ (exists i, In i (rdItems rd) /\ ilHref i = h) \/ (exists d, In d (rdDimensions rd) /\ lbHref d = h) ->
      has_role r (get_label labels h) -> In r roles.
Proof.
  intros tree labels concept_of genv dims_order entity role lbs rds roles langs GD E rd h r Hrd Hh.
  eapply (root_domains_covered _ _ _ _ _ _ _ _ _ _ _ GD (get_label_is_pack labels) E); eauto.
  unfold collected. destruct Hh as [->|[(i & Hi & <-)|(d & Hd & <-)]]; [now left| |]; right; apply in_app_iff;
    [left|right]; now apply in_map.
Qed.
Print Assumptions C91_roles_partial.
Example C91_example :
  exists rd roles langs, sample_roots [def_lb "all"] (get_label europe_labels) = Ok ([rd], roles, langs) /\ roles <> [].
Proof. vm_compute. do 3 eexists. split; [reflexivity|discriminate]. Qed.
