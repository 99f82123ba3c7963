(** * DefProofs *)
From Verif Require Import GoBase GoSpec GoFacts AttrModel SchemaModel SchemaProofs LinkbaseModel InstanceModel
  LabelModel LabelSpec LabelProofs LabelProps FactModel GridModel GridSpec GridProofs CalcSpec CalcProofs DefModel DefSpec.
Local Open Scope string_scope.

(** ** The links of a role *)
Lemma flat_map_combine {A B C} (g : A -> list B) (h : A -> B -> C) (l : list A) :
  concat (map (fun x => map (h (fst x)) (snd x)) (combine l (map g l))) = flat_map (fun a => map (h a) (g a)) l.
Proof. induction l as [|x l IH]; cbn; auto. now rewrite IH. Qed.
Lemma role_links_in {A} role (lb : linkbase A) : links_in role lb (role_links role lb).
Proof.
  assert (EX : existsb (fun rr => String.eqb role (rrRoleURI rr)) (lbRoleRefs lb) = true <-> declares lb role).
  { unfold declares. rewrite existsb_exists, in_map_iff. split; intros (rr & X & Y); exists rr; split; auto.
    - symmetry. now apply String.eqb_eq.
    - rewrite X. apply String.eqb_refl. }
  unfold role_links, links_in. destruct (existsb _ _).
  - left. split; [now apply EX|]. apply those_filter. intro. apply String.eqb_eq.
  - right. split; auto. intro D. apply EX in D. discriminate.
Qed.
Definition net_links {A} role (lbs : list (linkbase A)) : list (linkbase A * link A) :=
  flat_map (fun lb => map (pair lb) (role_links role lb)) lbs.
Lemma net_links_network {A} role (lbs : list (linkbase A)) : network_links role lbs (net_links role lbs).
Proof.
  exists (map (role_links role) lbs). split.
  - induction lbs; constructor; auto. apply role_links_in.
  - symmetry. apply (flat_map_combine (role_links role) pair).
Qed.

(** ** Dimension relationship sets *)
Lemma flat_map_flat_map {A B C} (f : B -> list C) (g : A -> list B) l :
  flat_map f (flat_map g l) = flat_map (fun x => flat_map f (g x)) l.
Proof. induction l as [|x l IH]; cbn; auto. now rewrite flat_map_app, IH. Qed.
Lemma flat_map_map {A B C} (f : B -> list C) (g : A -> B) l : flat_map f (map g l) = flat_map (fun x => f (g x)) l.
Proof. induction l as [|x l IH]; cbn; auto. now rewrite IH. Qed.
Lemma map_flat_map {A B C} (f : B -> C) (g : A -> list B) l : map f (flat_map g l) = flat_map (fun x => map f (g x)) l.
Proof. induction l as [|x l IH]; cbn; auto. now rewrite map_app, IH. Qed.
Lemma drs_links_eq format_order role lbs :
  drs_links format_order role lbs =
  map (fun x => drs_link_of format_order role (fst x) (snd x)) (arcs_of (net_links role lbs)).
Proof.
  unfold drs_links, arcs_of, net_links. rewrite flat_map_flat_map, map_flat_map.
  apply flat_map_ext. intro lb. rewrite flat_map_map, map_flat_map. apply flat_map_ext. intro k. now rewrite map_map.
Qed.
Lemma drs_link_for format_order role lb a : link_for format_order role (lb, a) (drs_link_of format_order role lb a).
Proof.
  unfold link_for. split; [|split].
  - unfold drs_link_of. repeat destruct (String.eqb _ _); apply locates_fun.
  - exists (if nonempty (daTargetRole a) then daTargetRole a else role). split.
    + unfold target_role. destruct (daTargetRole a); cbn [nonempty]; [left|right]; split; auto; discriminate.
    + unfold drs_link_of. destruct (nonempty (daTargetRole a)); repeat destruct (String.eqb _ _); apply locates_fun.
  - unfold drs_link_of.
    destruct (String.eqb_spec (daArcrole a) DomainMemberArcrole) as [E1|N1].
    { eexists; split; [apply cf_domain_member; exact E1|cbn; auto]. }
    destruct (String.eqb_spec (daArcrole a) HypercubeDimensionArcrole) as [E2|N2].
    { eexists; split; [apply cf_hypercube_dimension; exact E2|cbn; auto]. }
    destruct (String.eqb_spec (daArcrole a) DimensionDefaultArcrole) as [E3|N3].
    { eexists; split; [apply cf_dimension_default; exact E3|cbn; auto]. }
    destruct (String.eqb_spec (daArcrole a) DimensionDomainArcrole) as [E4|N4].
    { eexists; split; [apply cf_dimension_domain with (default := true); exact E4|cbn; auto]. }
    destruct (String.eqb_spec (daArcrole a) HasInclusiveHypercubeArcrole) as [E5|N5].
    { eexists; split; [apply cf_all; exact E5|cbn; auto]. }
    destruct (String.eqb_spec (daArcrole a) HasExclusiveHypercubeArcrole) as [E6|N6].
    { eexists; split; [apply cf_not_all; exact E6|cbn; auto]. }
    exists NoConnection; split; [apply cf_other|cbn; auto].
    intros [H|[H|[H|[H|[H|[H|[]]]]]]]; symmetry in H; contradiction.
Qed.
Lemma drs_hrefs_In links h : In h (drs_hrefs links) <-> endpoint links h.
Proof.
  unfold drs_hrefs, endpoint. rewrite dedup_In, in_flat_map.
  split; intros (l & Hl & E); exists l; split; auto; cbn in *; tauto.
Qed.
Lemma drs_hrefs_NoDup links : NoDup (drs_hrefs links).
Proof. apply dedup_NoDup. Qed.
Lemma drs_nodes_map format_order lbl role order lbs :
  drsNodes (get_drs format_order lbl role order lbs) =
  isort (fun a b => String.ltb (lbHref a) (lbHref b))
    (map (fun h => Labelled h (lbl h)) (order (drs_hrefs (drs_links format_order role lbs)))).
Proof. reflexivity. Qed.

(** ** Loops *)
Lemma foldO_app {A B} (f : A -> B -> option A) l l' a :
  foldO f (l ++ l')%list a = match foldO f l a with Some a' => foldO f l' a' | None => None end.
Proof. revert a. induction l as [|x l IH]; intro a; cbn; auto. destruct (f a x); auto. Qed.
Lemma foldO_flat_map {A B C} (f : A -> C -> option A) (g : B -> list C) l a :
  foldO (fun a b => foldO f (g b) a) l a = foldO f (flat_map g l) a.
Proof.
  revert a. induction l as [|x l IH]; intro a; cbn; auto. rewrite foldO_app. destruct (foldO f (g x) a); auto.
Qed.
Lemma foldO_ext {A B} (f g : A -> B -> option A) l a :
  (forall a b, f a b = g a b) -> foldO f l a = foldO g l a.
Proof. intro E. revert a. induction l as [|x l IH]; intro a; cbn; auto. rewrite E. destruct (g a x); auto. Qed.
Lemma foldO_inv {A B} (P : A -> Prop) (f : A -> B -> option A) l a a' :
  (forall a b a', P a -> f a b = Some a' -> P a') -> P a -> foldO f l a = Some a' -> P a'.
Proof.
  intro S. revert a. induction l as [|x l IH]; intros a Pa; cbn; [intros [= <-]; auto|].
  destruct (f a x) eqn:E; [|discriminate]. apply IH. eauto.
Qed.
Lemma fold_left_inv {A B} (P : A -> Prop) (f : A -> B -> A) l a :
  (forall a b, In b l -> P a -> P (f a b)) -> P a -> P (fold_left f l a).
Proof.
  revert a. induction l as [|x l IH]; intros a S Pa; cbn; auto. apply IH; [intros; apply S; auto; now right|].
  apply S; auto. now left.
Qed.
Lemma fold_left_flat_map {A B C} (f : A -> C -> A) (g : B -> list C) l a :
  fold_left (fun a b => fold_left f (g b) a) l a = fold_left f (flat_map g l) a.
Proof. revert a. induction l as [|x l IH]; intro a; cbn; auto. rewrite fold_left_app. auto. Qed.
Lemma fold_left_ext {A B} (f g : A -> B -> A) l a : (forall a b, f a b = g a b) -> fold_left f l a = fold_left g l a.
Proof. intro E. revert a. induction l as [|x l IH]; intro a; cbn; auto. rewrite E. auto. Qed.

Lemma nodup_same {A B} (f : A -> B) l x y : NoDup (map f l) -> In x l -> In y l -> f x = f y -> x = y.
Proof.
  induction l as [|z l IH]; cbn; intros ND Hx Hy E; [contradiction|]. inversion ND; subst.
  destruct Hx as [->|Hx], Hy as [->|Hy]; auto; exfalso; apply H1; [rewrite E|rewrite <- E]; now apply in_map.
Qed.

(** ** The order of an effective domain *)
Lemma em_lessP a b : em_less a b = true <-> em_before a b.
Proof.
  unfold em_less, em_before. destruct (String.eqb_spec (emHref a) (emHref b)) as [E|N]; cbn [negb].
  - rewrite E. destruct (emDefault a), (emDefault b), (emStruck a), (emStruck b); cbn;
      (split; [intro H; try discriminate; right; split; auto; try (left; split; reflexivity); right; repeat split; reflexivity
              |intros [H|(_ & [[H1 H2]|(H0 & H1 & H2)])]; try discriminate; auto; now apply slt_irrefl in H]).
  - rewrite ltb_iff. split; [auto|]. intros [H|[H _]]; [auto|contradiction].
Qed.
Lemma em_less_swo : swo (fun _ => True) em_less.
Proof.
  assert (T : forall a b, em_less a b = false <-> (slt (emHref b) (emHref a) \/ emHref a = emHref b /\
     ((emDefault a = false /\ emDefault b = true) \/ emDefault a = emDefault b /\ (emStruck a = true \/ emStruck b = false)))).
  { intros a b. unfold em_less. destruct (String.eqb_spec (emHref a) (emHref b)) as [E|N]; cbn [negb].
    - rewrite E. destruct (emDefault a), (emDefault b), (emStruck a), (emStruck b); cbn;
      (split; [intro H; try discriminate; right; split; auto
              |intros [H|(_ & [[H1 H2]|(H0 & [H1|H1])])]; try discriminate; auto; now apply slt_irrefl in H]).
    - rewrite ltb_false_iff. unfold sle. split; [intros [H|H]; auto; congruence|]. intros [H|[H _]]; auto. }
  split.
  - intros x y _ _ H. apply em_lessP in H. apply T. unfold em_before in H.
    destruct H as [H|(E & H)]; [auto|]. right. split; [congruence|].
    destruct H as [[A B]|(A & B & C)]; [left; auto|right; split; [congruence|auto]].
  - intros x y z _ _ _ H1 H2. apply T in H1. apply T in H2. apply T.
    destruct H1 as [H1|(E1 & H1)]; destruct H2 as [H2|(E2 & H2)].
    + left. eapply slt_trans; eauto.
    + left. rewrite E2. auto.
    + left. rewrite <- E1. auto.
    + right. split; [congruence|].
      destruct (emDefault x), (emDefault y), (emDefault z), (emStruck x), (emStruck y), (emStruck z); intuition (try discriminate; auto).
Qed.
Definition em_key (e : effective_member) := (emHref e, emDefault e, emStruck e).
Lemma em_sorted_strict l :
  NoDup (map em_key l) -> StronglySorted em_before (isort em_less l).
Proof.
  intro ND.
  pose proof (isort_sorted em_less (fun _ => True) em_less_swo l (proj2 (Forall_forall _ _) (fun _ _ => I))) as S.
  pose proof (isort_perm em_less l) as P.
  assert (ND' : NoDup (map em_key (isort em_less l))) by (eapply Permutation_NoDup; [apply Permutation_map, P|exact ND]).
  clear ND P. induction S as [|x m S IH F]; constructor.
  - apply IH. now inversion ND'.
  - inversion ND' as [|? ? NI _]; subst. rewrite Forall_forall in *. intros y Hy.
    specialize (F y Hy). unfold em_before.
    destruct (slt_total (emHref x) (emHref y)) as [L|[E|L]]; auto.
    + right. split; auto. assert (K : em_key y <> em_key x) by (intro K; apply NI; rewrite <- K; now apply in_map).
      unfold em_key in K. unfold em_less in F. rewrite E, String.eqb_refl in F.
      destruct (emDefault x), (emDefault y), (emStruck x), (emStruck y); cbn in F; try discriminate; auto;
        exfalso; apply K; now rewrite E.
    + assert (em_less y x = true) by (apply em_lessP; now left). congruence.
Qed.

Section EffectiveDomain.
  Variable href_of : string -> string.
  Variable lbl : string -> label_pack.
  Notation at_node n := (href_of (ra_locator n)).

  (** *** No two entries of an effective domain are alike *)
  Definition kind (d s : bool) (e : effective_member) := emDefault e = d /\ emStruck e = s.
  Definition good (d s : bool) (before : bool -> bool -> Prop) (st : ed_state) : Prop :=
    NoDup (map em_key (esRet st)) /\
    (forall e, In e (esRet st) -> emLabel e = lbl (emHref e)) /\
    (forall e, In e (esRet st) -> (kind d s e /\ In (emHref e) (esSeen st)) \/ before (emDefault e) (emStruck e)).
  Lemma good_add d s (before : bool -> bool -> Prop) st h packs :
    ~ before d s -> good d s before st -> ~ In h (esSeen st) ->
    good d s before (EDState (h :: esSeen st) (esRet st ++ [EM h (lbl h) d s])%list packs).
  Proof.
    intros NB (A & L & B) NI. split; [|split]; cbn [esRet esSeen].
    - rewrite map_app. cbn [map]. apply Permutation_NoDup with (l := (h, d, s) :: map em_key (esRet st)).
      { apply Permutation_cons_append. }
      constructor; auto. intro H. apply in_map_iff in H. destruct H as (e & K & He).
      unfold em_key in K. injection K as K1 K2 K3. destruct (B e He) as [[_ S]|S].
      + rewrite K1 in S. contradiction.
      + rewrite K2, K3 in S. contradiction.
    - intros e He. apply in_app_iff in He. destruct He as [He|[<-|[]]]; auto.
    - intros e He. apply in_app_iff in He. destruct He as [He|[<-|[]]].
      + destruct (B e He) as [[K S]|S]; auto. left. split; auto. now right.
      + left. split; [split; reflexivity|now left].
  Qed.
  Lemma good_next d s before d' s' (before' : bool -> bool -> Prop) st packs :
    good d s before st -> (forall x y, (x = d /\ y = s) \/ before x y -> before' x y) ->
    good d' s' before' (EDState [] (esRet st) packs).
  Proof.
    intros (A & L & B) I. split; [auto|split; auto]. cbn. intros e He. right. apply I.
    destruct (B e He) as [[K _]|K]; auto.
  Qed.
  Lemma add_default_good s before st n st' :
    ~ before true s -> good true s before st -> add_default href_of lbl s st n = Some st' -> good true s before st'.
  Proof.
    unfold add_default. intros NB G. destruct (mem _ _ _) eqn:E; [discriminate|]. intros [= <-].
    apply good_add; auto. apply (mem_false String.eqb seqP). auto.
  Qed.
  Lemma traverse_good s before n : ~ before false s -> forall st, good false s before st -> good false s before (traverse href_of lbl s n st).
  Proof.
    intro NB. induction n as [l o cs IH] using rarc_rect'. intros st G. cbn [traverse].
    destruct (mem _ _ _) eqn:E.
    { split; [constructor|split; intros ? []]. }
    apply fold_left_inv.
    - intros a b Hb Ga. rewrite Forall_forall in IH. now apply IH.
    - apply good_add; auto. apply (mem_false String.eqb seqP). auto.
  Qed.
  Lemma add_members_good s before hc_dim dim_domain domains dim hs st :
    ~ before false s -> good false s before st ->
    good false s before (add_members href_of lbl s hc_dim dim_domain domains dim hs st).
  Proof.
    intros NB G. unfold add_members. apply fold_left_inv; auto. intros a x _ Ga.
    apply fold_left_inv; auto. intros a1 h _ G1. destruct (String.eqb h _); auto.
    apply fold_left_inv; auto. intros a2 d _ G2. destruct (negb _); auto.
    apply fold_left_inv; auto. intros a3 dd _ G3. destruct (negb _); auto.
    apply fold_left_inv; auto. intros a4 n _ G4. now apply traverse_good.
  Qed.
  Lemma effective_domain_strict w item dim :
    StronglySorted em_before (fst (get_effective_domain href_of lbl w item dim)) /\
    forall e, In e (fst (get_effective_domain href_of lbl w item dim)) -> emLabel e = lbl (emHref e).
  Proof.
    assert (NO : StronglySorted em_before [] /\ forall e : effective_member, In e [] -> emLabel e = lbl (emHref e))
      by (split; [constructor|intros ? []]).
    unfold get_effective_domain. cbv zeta. destruct (existsb _ _); [exact NO|].
    destruct (included_defaults _ _ _ _ _ _ _) as [s1|] eqn:E1; [|exact NO].
    assert (G1 : good true false (fun _ _ => False) s1).
    { revert E1. apply foldO_inv.
      - intros a x a' Ga. apply foldO_inv; auto. intros b h b' Gb. destruct (String.eqb h _); [|now intros [= <-]].
        apply foldO_inv; auto. intros c d c' Gc. destruct (negb _); [now intros [= <-]|].
        apply foldO_inv; auto. intros e n e' Ge He. eapply add_default_good in He; eauto.
      - split; [constructor|split; intros ? []]. }
    destruct (excluded_defaults _ _ _ _ _ _) as [s2|] eqn:E2; [|exact NO].
    assert (G2 : good true true (fun x y => x = true /\ y = false) s2).
    { revert E2. apply foldO_inv.
      - intros a x a' Ga. apply foldO_inv; auto. intros b h b' Gb. destruct (String.eqb h _); [|now intros [= <-]].
        apply foldO_inv; auto. intros c d c' Gc. destruct (mem _ _ _); [now intros [= <-]|].
        apply foldO_inv; auto. intros e n e' Ge He. eapply add_default_good in He; eauto. cbn. intros [_ ?]; discriminate.
      - eapply good_next; [exact G1|]. intros x y [H|[]]. auto. }
    cbn [fst].
    set (s3 := add_members _ _ false _ _ _ _ _ _).
    assert (G3 : good false false (fun x _ => x = true) s3).
    { apply add_members_good; [discriminate|]. eapply good_next; [exact G2|]. cbn. tauto. }
    assert (G4 := add_members_good true (fun x y => x = true \/ y = false) (nwHcDim w) (nwDimDomain w) (nwDomains w) dim
       (hypercube_hrefs href_of (nwExclusive w) (nwHcDim w) item dim) (EDState [] (esRet s3) (esPacks s3))).
    assert (G4' : good false true (fun x y => x = true \/ y = false) (EDState [] (esRet s3) (esPacks s3)))
      by (eapply good_next; [exact G3|]; cbn; tauto).
    specialize (G4 ltac:(cbn; intros [?|?]; discriminate) G4'). destruct G4 as (A & L & _).
    split; [now apply em_sorted_strict|]. intros e He. apply isort_in in He. auto.
  Qed.

  (** *** Hypercubes *)
  Lemma hypercube_hrefs_In cubes hc_dim item dim hc :
    In hc (hypercube_hrefs href_of cubes hc_dim item dim) <-> cube_for href_of cubes hc_dim item dim hc.
  Proof.
    unfold hypercube_hrefs, cube_for, edge. rewrite in_flat_map. split.
    - intros (n & Hn & H). destruct (String.eqb_spec item (at_node n)) as [E|]; [|contradiction].
      apply in_flat_map in H. destruct H as (c & Hc & H). apply in_flat_map in H. destruct H as (x & Hx & H).
      destruct (String.eqb_spec (at_node c) (at_node x)) as [E2|]; [|contradiction].
      apply in_flat_map in H. destruct H as (d & Hd & H).
      destruct (String.eqb_spec dim (at_node d)) as [E3|]; [|contradiction]. destruct H as [<-|[]].
      split; [exists n, c|exists x, d]; auto.
    - intros [(n & c & Hn & En & Hc & Ec) (x & d & Hx & Ex & Hd & Ed)].
      exists n. split; auto. rewrite En, String.eqb_refl. apply in_flat_map. exists c. split; auto.
      apply in_flat_map. exists x. split; auto. rewrite Ec, Ex, String.eqb_refl.
      apply in_flat_map. exists d. split; auto. rewrite Ed, String.eqb_refl. now left.
  Qed.

  (** *** Loops over networks without repeated nodes *)
  Lemma pick_one {B} (f : rarc -> list B) l h :
    NoDup (map (fun n => at_node n) l) ->
    (exists n, In n l /\ at_node n = h /\ flat_map (fun x => if String.eqb h (at_node x) then f x else []) l = f n) \/
    ((forall n, In n l -> at_node n <> h) /\ flat_map (fun x => if String.eqb h (at_node x) then f x else []) l = []).
  Proof.
    induction l as [|n l IH]; intro ND; [right; split; [intros ? []|auto]|]. cbn [map] in ND. inversion ND; subst.
    cbn [flat_map]. destruct (IH H2) as [(m & Hm & Em & E)|[NO E]]; rewrite E.
    - left. exists m. split; [now right|]. split; auto. destruct (String.eqb_spec h (at_node n)) as [Eh|]; auto.
      exfalso. apply H1. rewrite <- Eh, <- Em. now apply (in_map (fun n => at_node n)).
    - destruct (String.eqb_spec h (at_node n)) as [Eh|Nh].
      + left. exists n. split; [now left|]. split; auto. apply app_nil_r.
      + right. split; auto. intros m [<-|Hm]; auto.
  Qed.
  (** the list of hypercubes has at most one element if the networks are tidy and there is at
      most one such hypercube *)
  Lemma one_hypercube cubes hc_dim item dim :
    tidy href_of cubes -> tidy href_of hc_dim ->
    (forall h h', cube_for href_of cubes hc_dim item dim h -> cube_for href_of cubes hc_dim item dim h' -> h = h') ->
    hypercube_hrefs href_of cubes hc_dim item dim = [] \/
    exists hc, hypercube_hrefs href_of cubes hc_dim item dim = [hc].
  Proof.
    intros [T1 T2] [T3 T4] U.
    assert (ND : NoDup (hypercube_hrefs href_of cubes hc_dim item dim)).
    { unfold hypercube_hrefs.
      destruct (pick_one (fun n => flat_map (fun c =>
        flat_map (fun x => if String.eqb (at_node c) (at_node x) then
          flat_map (fun d => if String.eqb dim (at_node d) then [at_node c] else []) (ra_children x)
          else []) (ra_children hc_dim)) (ra_children n)) (ra_children cubes) item T1) as [(n & Hn & _ & ->)|[_ ->]];
        [|constructor].
      specialize (T2 n Hn). clear Hn. induction (ra_children n) as [|c l IH]; cbn [flat_map]; [constructor|].
      cbn [map] in T2. inversion T2; subst.
      assert (C : let g c := flat_map (fun x => if String.eqb (at_node c) (at_node x) then
          flat_map (fun d => if String.eqb dim (at_node d) then [at_node c] else []) (ra_children x)
          else []) (ra_children hc_dim) in forall c, g c = [] \/ g c = [at_node c]).
      { intros g c'. unfold g.
        destruct (pick_one (fun x => flat_map (fun d => if String.eqb dim (at_node d) then [at_node c'] else []) (ra_children x))
          (ra_children hc_dim) (at_node c') T3) as [(x & Hx & _ & ->)|[_ ->]]; auto.
        destruct (pick_one (fun _ => [at_node c']) (ra_children x) dim (T4 x Hx)) as [(d & _ & _ & ->)|[_ ->]]; auto. }
      cbv zeta in C. specialize (IH H2).
      assert (IN : forall y, In y (flat_map (fun c => flat_map (fun x => if String.eqb (at_node c) (at_node x) then
          flat_map (fun d => if String.eqb dim (at_node d) then [at_node c] else []) (ra_children x)
          else []) (ra_children hc_dim)) l) -> In y (map (fun c => at_node c) l)).
      { intros y Hy. apply in_flat_map in Hy. destruct Hy as (c' & Hc' & Hy).
        destruct (C c') as [Ec|Ec]; rewrite Ec in Hy; [contradiction|]. destruct Hy as [<-|[]].
        now apply (in_map (fun c => at_node c)). }
      destruct (C c) as [Ec|Ec]; rewrite Ec; auto. cbn [app]. constructor; auto. }
    assert (U' : forall h h', In h (hypercube_hrefs href_of cubes hc_dim item dim) ->
                              In h' (hypercube_hrefs href_of cubes hc_dim item dim) -> h = h')
      by (intros h h' A B; apply U; now apply hypercube_hrefs_In).
    destruct (hypercube_hrefs href_of cubes hc_dim item dim) as [|a [|b l]]; [now left|right; now exists a|].
    exfalso. inversion ND; subst. apply H1. left. apply U'; cbn; auto.
  Qed.

  (** *** Defaults *)
  Lemma add_defaults_eq s l st :
    NoDup (map (fun n => at_node n) l) -> (forall n, In n l -> ~ In (at_node n) (esSeen st)) ->
    exists seen, foldO (add_default href_of lbl s) l st =
      Some (EDState seen (esRet st ++ map (fun n => EM (at_node n) (lbl (at_node n)) true s) l)
                         (esPacks st ++ map (fun n => lbl (at_node n)) l))%list /\
      forall h, In h seen <-> In h (esSeen st) \/ In h (map (fun n => at_node n) l).
  Proof.
    revert st. induction l as [|n l IH]; intros st ND NI.
    - exists (esSeen st). cbn. rewrite !app_nil_r. destruct st. split; [reflexivity|]. intro; tauto.
    - cbn [foldO]. unfold add_default at 1.
      assert (X : mem String.eqb (at_node n) (esSeen st) = false)
        by (apply (mem_false String.eqb seqP), NI; now left).
      rewrite X. cbn [map] in ND. inversion ND; subst.
      destruct (IH (EDState (at_node n :: esSeen st) (esRet st ++ [EM (at_node n) (lbl (at_node n)) true s])
                     (esPacks st ++ [lbl (at_node n)]))%list H2) as (seen & E & S).
      + cbn [esSeen]. intros m Hm [Em|Hs]; [|apply (NI m); [now right|auto]].
        apply H1. rewrite Em. now apply (in_map (fun n => at_node n)).
      + exists seen. rewrite E. cbn [esRet esPacks esSeen] in *. rewrite <- !app_assoc. split; auto.
        intro h. rewrite S. cbn. tauto.
  Qed.

  (** *** Members *)
  Fixpoint nodes (r : rarc) : list string :=
    match r with RArc l _ cs => href_of l :: flat_map nodes cs end.
  Lemma nodes_below r : nodes r = map href_of (ra_locator r :: locators_below r).
  Proof.
    induction r as [l o cs IH] using rarc_rect'. cbn [nodes ra_locator locators_below map]. f_equal.
    rewrite map_flat_map. induction IH as [|c cs Hc _ IH]; cbn [flat_map]; auto. now rewrite Hc, IH.
  Qed.
  Lemma forest_hrefs_nodes l : forest_hrefs href_of l = flat_map nodes l.
  Proof. unfold forest_hrefs. rewrite map_flat_map. apply flat_map_ext. intro. now rewrite nodes_below. Qed.
  Definition entry (s : bool) (h : string) : effective_member := EM h (lbl h) false s.
  Lemma NoDup_app_inv {A} (l l' : list A) : NoDup (l ++ l') -> NoDup l /\ NoDup l' /\ forall x, In x l -> ~ In x l'.
  Proof.
    induction l as [|x l IH]; cbn; intro H; [split; [constructor|split; auto]|].
    inversion H; subst. destruct (IH H3) as (A1 & B1 & C1). split; [constructor; auto; intro; apply H2, in_app_iff; auto|].
    split; auto. intros y [<-|Hy]; auto. intro; apply H2, in_app_iff; auto.
  Qed.
  Lemma traverse_eq s n : forall st, NoDup (nodes n) -> (forall h, In h (nodes n) -> ~ In h (esSeen st)) ->
    exists seen, traverse href_of lbl s n st =
      EDState seen (esRet st ++ map (entry s) (nodes n))%list (esPacks st) /\
      forall h, In h seen <-> In h (esSeen st) \/ In h (nodes n).
  Proof.
    induction n as [l o cs IH] using rarc_rect'. intros st ND NI. cbn [traverse nodes] in *.
    assert (X : mem String.eqb (href_of l) (esSeen st) = false)
      by (apply (mem_false String.eqb seqP), NI; now left).
    rewrite X. inversion ND; subst.
    assert (G : forall st', NoDup (flat_map nodes cs) -> (forall h, In h (flat_map nodes cs) -> ~ In h (esSeen st')) ->
      exists seen, fold_left (fun st c => traverse href_of lbl s c st) cs st' =
        EDState seen (esRet st' ++ map (entry s) (flat_map nodes cs))%list (esPacks st') /\
        forall h, In h seen <-> In h (esSeen st') \/ In h (flat_map nodes cs)).
    { clear - IH. induction IH as [|c cs Hc _ IHc]; intros st' ND' NI'; cbn [fold_left flat_map].
      - exists (esSeen st'). cbn. rewrite app_nil_r. destruct st'. split; [reflexivity|]. intro; tauto.
      - cbn [flat_map] in ND', NI'. apply NoDup_app_inv in ND'. destruct ND' as (N1 & N2 & N3).
        destruct (Hc st' N1) as (seen & E & S); [intros h Hh; apply NI', in_app_iff; auto|]. rewrite E.
        destruct (IHc (EDState seen (esRet st' ++ map (entry s) (nodes c)) (esPacks st'))%list N2) as (seen2 & E2 & S2).
        + cbn [esSeen]. intros h Hh. rewrite S. intros [H|H]; [apply (NI' h); auto; apply in_app_iff; auto|].
          now apply (N3 h).
        + exists seen2. rewrite E2. cbn [esRet esPacks esSeen] in *. rewrite map_app, <- app_assoc. split; auto.
          intro h. rewrite S2, S, in_app_iff. tauto. }
    destruct (G (EDState (href_of l :: esSeen st) (esRet st ++ [entry s (href_of l)]) (esPacks st))%list H2) as (seen & E & S).
    - cbn [esSeen]. intros h Hh [<-|Hs]; [now apply H1|]. apply (NI h); auto. now right.
    - exists seen. cbn [esRet esPacks esSeen] in *. unfold entry in E at 1. rewrite E, <- app_assoc. split; [reflexivity|].
      intro h. rewrite S. cbn. tauto.
  Qed.
  Lemma traverse_all s l : forall st, NoDup (flat_map nodes l) -> (forall h, In h (flat_map nodes l) -> ~ In h (esSeen st)) ->
    exists seen, fold_left (fun st n => traverse href_of lbl s n st) l st =
      EDState seen (esRet st ++ map (entry s) (flat_map nodes l))%list (esPacks st).
  Proof.
    induction l as [|c l IH]; intros st ND NI; cbn [fold_left flat_map] in *.
    - exists (esSeen st). cbn. rewrite app_nil_r. now destruct st.
    - apply NoDup_app_inv in ND. destruct ND as (N1 & N2 & N3).
      destruct (traverse_eq s c st N1) as (seen & E & S); [intros h Hh; apply NI, in_app_iff; auto|]. rewrite E.
      destruct (IH (EDState seen (esRet st ++ map (entry s) (nodes c)) (esPacks st))%list N2) as (seen2 & E2).
      + cbn [esSeen]. intros h Hh. rewrite S. intros [H|H]; [apply (NI h); auto; apply in_app_iff; auto|].
        now apply (N3 h).
      + exists seen2. rewrite E2. cbn [esRet esPacks]. now rewrite map_app, <- app_assoc.
  Qed.

  (** *** The loops, flattened *)
  Definition default_visits (hc_dim dim_default : rarc) (keep : rarc -> bool) (hs : list string) : list rarc :=
    flat_map (fun x => flat_map (fun h => if String.eqb h (at_node x) then
      flat_map (fun d => if keep d then ra_children d else []) (ra_children dim_default) else []) hs) (ra_children hc_dim).
  Lemma included_defaults_eq hc_dim dim_default dim hs st :
    included_defaults href_of lbl hc_dim dim_default dim hs st =
    foldO (add_default href_of lbl false) (default_visits hc_dim dim_default (fun d => String.eqb dim (at_node d)) hs) st.
  Proof.
    unfold included_defaults, default_visits. rewrite <- foldO_flat_map. apply foldO_ext. intros a x.
    rewrite <- foldO_flat_map. apply foldO_ext. intros b h.
    destruct (String.eqb h (at_node x)); [|reflexivity].
    rewrite <- foldO_flat_map. apply foldO_ext. intros c d. rewrite (String.eqb_sym dim).
    now destruct (String.eqb (at_node d) dim).
  Qed.
  (** the test of the second loop never succeeds if no dimension is a default *)
  Lemma excluded_defaults_eq hc_dim dim_default hs st :
    (forall d, In d (ra_children dim_default) -> ~ In (at_node d) (all_defaults href_of dim_default)) ->
    esSeen st = [] ->
    excluded_defaults href_of lbl hc_dim dim_default hs st =
    foldO (add_default href_of lbl true) (default_visits hc_dim dim_default (fun _ => true) hs) st.
  Proof.
    intros ND SE. unfold excluded_defaults, default_visits. rewrite <- foldO_flat_map.
    set (ok := fun st => forall h, In h (esSeen st) -> In h (all_defaults href_of dim_default)).
    assert (OK : ok st) by (intros h Hh; rewrite SE in Hh; contradiction).
    (* equal under the invariant *)
    assert (EXT : forall (X : Type) (f g : ed_state -> X -> option ed_state) l a,
      (forall a b, In b l -> ok a -> f a b = g a b /\ (forall a', g a b = Some a' -> ok a')) -> ok a ->
      foldO f l a = foldO g l a /\ (forall a', foldO g l a = Some a' -> ok a')).
    { intros X f g l. induction l as [|x l IH]; intros a H Oa; cbn; [split; auto; now intros ? [= <-]|].
      destruct (H a x (or_introl eq_refl) Oa) as [E K]. rewrite E.
      destruct (g a x) as [a1|]; [|split; auto; discriminate]. apply IH; [intros; apply H; auto; now right|auto]. }
    apply EXT; auto. intros a x _ Oa. rewrite <- foldO_flat_map. apply EXT; auto. intros b h _ Ob.
    destruct (String.eqb h (at_node x)); [|cbn; split; auto; now intros ? [= <-]].
    rewrite <- foldO_flat_map. apply EXT; auto. intros c d Hd Oc.
    assert (X : mem String.eqb (at_node d) (esSeen c) = false).
    { apply (mem_false String.eqb seqP). intro H. apply (ND d Hd). now apply Oc. }
    rewrite X. clear X. apply EXT; auto. intros e n Hn Oe. split; auto. unfold add_default. intro a'. destruct (mem _ _ _); [discriminate|].
    intro Q. assert (Q' : a' = EDState (at_node n :: esSeen e) (esRet e ++ [EM (at_node n) (lbl (at_node n)) true true])
                            (esPacks e ++ [lbl (at_node n)])%list) by congruence.
    subst a'. intros y [<-|Hy]; [|auto]. unfold all_defaults. apply in_flat_map. exists d. split; auto.
    now apply (in_map (fun n => at_node n)).
  Qed.
  Definition member_visits (hc_dim dim_domain : rarc) (domains : list rarc) (dim : string) (hs : list string) : list rarc :=
    flat_map (fun x => flat_map (fun h => if String.eqb h (at_node x) then
      flat_map (fun d => if String.eqb dim (at_node d) then
        flat_map (fun dd => if String.eqb (at_node d) (at_node dd) then domains else []) (ra_children dim_domain)
        else []) (ra_children x) else []) hs) (ra_children hc_dim).
  Lemma add_members_eq s hc_dim dim_domain domains dim hs st :
    add_members href_of lbl s hc_dim dim_domain domains dim hs st =
    fold_left (fun st n => traverse href_of lbl s n st) (member_visits hc_dim dim_domain domains dim hs) st.
  Proof.
    unfold add_members, member_visits. rewrite <- fold_left_flat_map. apply fold_left_ext. intros a x.
    rewrite <- fold_left_flat_map. apply fold_left_ext. intros b h. destruct (String.eqb h (at_node x)); [|reflexivity].
    rewrite <- fold_left_flat_map. apply fold_left_ext. intros c d. destruct (String.eqb dim (at_node d)); [|reflexivity].
    cbn [negb]. rewrite <- fold_left_flat_map. apply fold_left_ext. intros e dd.
    now destruct (String.eqb (at_node d) (at_node dd)).
  Qed.
  (** *** The collected labels *)
  Lemma effective_packs w item dim p :
    (forall h, is_pack (lbl h)) -> In p (snd (get_effective_domain href_of lbl w item dim)) -> is_pack p.
  Proof.
    intro LP. set (ok := fun st => forall p, In p (esPacks st) -> is_pack p).
    assert (AD : forall s a n a', ok a -> add_default href_of lbl s a n = Some a' -> ok a').
    { unfold add_default. intros s a n a' Oa. destruct (mem _ _ _); [discriminate|]. intros [= <-] q Hq.
      cbn in Hq. apply in_app_iff in Hq. destruct Hq as [Hq|[<-|[]]]; auto. }
    assert (TR : forall s n st, ok st -> ok (traverse href_of lbl s n st)).
    { intros s n. induction n as [l o cs IH] using rarc_rect'. intros st O. cbn [traverse].
      destruct (mem _ _ _); [intros ? []|]. apply fold_left_inv; [|exact O]. intros a b Hb Oa. rewrite Forall_forall in IH. now apply IH. }
    assert (AM : forall s hs st, ok st -> ok (add_members href_of lbl s (nwHcDim w) (nwDimDomain w) (nwDomains w) dim hs st)).
    { intros s hs st O. rewrite add_members_eq. apply fold_left_inv; auto. }
    unfold get_effective_domain. cbv zeta. destruct (existsb _ _); [intros []|].
    destruct (included_defaults _ _ _ _ _ _ _) as [s1|] eqn:E1; [|intros []].
    assert (O1 : ok s1).
    { rewrite included_defaults_eq in E1. revert E1. apply foldO_inv; [|intros ? []]. intros a n a'. apply AD. }
    destruct (excluded_defaults _ _ _ _ _ _) as [s2|] eqn:E2; [|intros []].
    assert (O2 : ok s2).
    { revert E2. apply foldO_inv; [|exact O1].
      intros a x a' Ga. apply foldO_inv; auto. intros b h b' Gb. destruct (String.eqb h _); [|now intros [= <-]].
      apply foldO_inv; auto. intros c d c' Gc. destruct (mem _ _ _); [now intros [= <-]|].
      apply foldO_inv; auto. intros e n e'. apply AD. }
    cbn [snd]. intro Hp. revert p Hp. apply AM. cbn [esPacks]. 
    match goal with |- ok (EDState [] ?r (esPacks ?s3)) => assert (O3 : ok s3) by (apply AM; exact O2); exact O3 end.
  Qed.

  Lemma cube_visits {B} (f : rarc -> list B) cubes hc_dim item dim :
    tidy href_of cubes -> tidy href_of hc_dim ->
    (forall h h', cube_for href_of cubes hc_dim item dim h -> cube_for href_of cubes hc_dim item dim h' -> h = h') ->
    let v := flat_map (fun x => flat_map (fun h => if String.eqb h (at_node x) then f x else [])
                        (hypercube_hrefs href_of cubes hc_dim item dim)) (ra_children hc_dim) in
    ((forall hc, ~ cube_for href_of cubes hc_dim item dim hc) /\ v = []) \/
    (exists hc x, cube_for href_of cubes hc_dim item dim hc /\ In x (ra_children hc_dim) /\ at_node x = hc /\
       (exists d, In d (ra_children x) /\ at_node d = dim) /\ v = f x).
  Proof.
    intros T1 T2 U v. subst v.
    destruct (one_hypercube cubes hc_dim item dim T1 T2 U) as [E|(hc & E)]; rewrite E.
    - left. split; [|now induction (ra_children hc_dim)]. intros hc H. apply hypercube_hrefs_In in H. rewrite E in H. contradiction.
    - right. assert (C : cube_for href_of cubes hc_dim item dim hc) by (apply hypercube_hrefs_In; rewrite E; now left).
      destruct (pick_one f (ra_children hc_dim) hc (proj1 T2)) as [(x & Hx & Ex & Ef)|[NO _]].
      + exists hc, x. split; auto. split; auto. split; auto. split.
        * destruct C as [_ (x' & d & Hx' & Ex' & Hd & Ed)]. exists d. split; auto.
          assert (x' = x) as <-; [|exact Hd].
          apply (nodup_same (fun n => at_node n) _ _ _ (proj1 T2)); auto. congruence.
        * rewrite <- Ef. apply flat_map_ext. intro y. cbn [flat_map]. now rewrite app_nil_r.
      + exfalso. destruct C as [_ (x & d & Hx & Ex & _)]. now apply (NO x).
  Qed.
  Lemma tops_In l h : In h (map (fun c : rarc => at_node c) l) <-> exists c, In c l /\ at_node c = h.
  Proof. rewrite in_map_iff. split; intros (c & A & B); exists c; auto. Qed.

  Lemma effective_domain_exact w item dim :
    tidy href_of (nwDimDomain w) -> tidy href_of (nwExclusive w) -> tidy href_of (nwInclusive w) ->
    tidy href_of (nwHcDim w) -> tidy href_of (nwDimDefault w) ->
    NoDup (forest_hrefs href_of (nwDomains w)) ->
    NoDup (all_defaults href_of (nwDimDefault w)) ->
    (forall d, In d (ra_children (nwDimDefault w)) -> ~ In (at_node d) (all_defaults href_of (nwDimDefault w))) ->
    (forall d, In d (ra_children (nwDimDomain w)) -> ra_children d <> []) ->
    (forall h h', cube_for href_of (nwInclusive w) (nwHcDim w) item dim h -> cube_for href_of (nwInclusive w) (nwHcDim w) item dim h' -> h = h') ->
    (forall h h', cube_for href_of (nwExclusive w) (nwHcDim w) item dim h -> cube_for href_of (nwExclusive w) (nwHcDim w) item dim h' -> h = h') ->
    ~ (exists hc, cube_for href_of (nwInclusive w) (nwHcDim w) item dim hc /\ cube_for href_of (nwExclusive w) (nwHcDim w) item dim hc) ->
    forall e, In e (fst (get_effective_domain href_of lbl w item dim)) <-> in_domain href_of lbl w item dim e.
  Proof.
    intros TD TE TI TH TF NM NF ND NC UI UE NB e. unfold get_effective_domain. cbv zeta.
    assert (X : existsb (fun h => mem String.eqb h (hypercube_hrefs href_of (nwExclusive w) (nwHcDim w) item dim))
                  (hypercube_hrefs href_of (nwInclusive w) (nwHcDim w) item dim) = false).
    { destruct (existsb _ _) eqn:E; auto. exfalso. apply NB. apply existsb_exists in E. destruct E as (h & H1 & H2).
      apply (mem_In String.eqb seqP) in H2. exists h. split; now apply hypercube_hrefs_In. }
    rewrite X.
    rewrite included_defaults_eq.
    (* included defaults *)
    assert (V1 : exists l1, default_visits (nwHcDim w) (nwDimDefault w) (fun d => String.eqb dim (at_node d))
                   (hypercube_hrefs href_of (nwInclusive w) (nwHcDim w) item dim) = l1 /\
                 NoDup (map (fun n => at_node n) l1) /\
                 forall h, In h (map (fun n => at_node n) l1) <->
                   (exists hc, cube_for href_of (nwInclusive w) (nwHcDim w) item dim hc) /\ edge href_of (nwDimDefault w) dim h).
    { eexists. split; [reflexivity|]. unfold default_visits.
      destruct (cube_visits (fun _ => flat_map (fun d => if String.eqb dim (at_node d) then ra_children d else []) (ra_children (nwDimDefault w)))
        _ _ _ _ TI TH UI) as [[NO E]|(hc & x & C & _ & _ & _ & E)]; rewrite E.
      - split; [constructor|]. intro h. split; [intros []|]. intros [(hc & H) _]. now apply NO in H.
      - destruct (pick_one (fun d => ra_children d) (ra_children (nwDimDefault w)) dim (proj1 TF)) as [(d & Hd & Ed & ->)|[NO ->]].
        + split; [now apply (proj2 TF)|]. intro h. rewrite tops_In. split.
          * intros (c & Hc & Ec). split; [now exists hc|]. exists d, c. auto.
          * intros [_ (d' & c & Hd' & Ed' & Hc & Ec)]. exists c. split; auto.
            assert (d' = d) as <-; auto. apply (nodup_same (fun n => at_node n) _ _ _ (proj1 TF)); auto. congruence.
        + split; [constructor|]. intro h. split; [intros []|]. intros [_ (d & c & Hd & Ed & _)]. now apply NO in Ed. }
    destruct V1 as (l1 & -> & N1 & I1).
    destruct (add_defaults_eq false l1 (EDState [] [] []) N1) as (seen1 & E1 & _); [intros ? _ []|]. rewrite E1.
    cbn [esRet esPacks app].
    (* excluded defaults *)
    rewrite excluded_defaults_eq by auto.
    assert (V2 : exists l2, default_visits (nwHcDim w) (nwDimDefault w) (fun _ => true)
                   (hypercube_hrefs href_of (nwExclusive w) (nwHcDim w) item dim) = l2 /\
                 NoDup (map (fun n => at_node n) l2) /\
                 forall h, In h (map (fun n => at_node n) l2) <->
                   (exists hc, cube_for href_of (nwExclusive w) (nwHcDim w) item dim hc) /\ exists d, edge href_of (nwDimDefault w) d h).
    { eexists. split; [reflexivity|]. unfold default_visits.
      destruct (cube_visits (fun _ => flat_map (fun d : rarc => ra_children d) (ra_children (nwDimDefault w)))
        _ _ _ _ TE TH UE) as [[NO E]|(hc & x & C & _ & _ & _ & E)]; rewrite E.
      - split; [constructor|]. intro h. split; [intros []|]. intros [(hc & H) _]. now apply NO in H.
      - rewrite map_flat_map. split; [exact NF|]. intro h. rewrite in_flat_map. split.
        + intros (d & Hd & H). apply tops_In in H. destruct H as (c & Hc & Ec). split; [now exists hc|].
          exists (at_node d), d, c. auto.
        + intros [_ (d' & d & c & Hd & _ & Hc & Ec)]. exists d. split; auto. apply tops_In. exists c. auto. }
    destruct V2 as (l2 & -> & N2 & I2).
    destruct (add_defaults_eq true l2 (EDState [] (map (fun n => EM (at_node n) (lbl (at_node n)) true false) l1)
       (map (fun n => lbl (at_node n)) l1)) N2) as (seen2 & E2 & _); [intros ? _ []|]. rewrite E2.
    cbn [esRet esPacks fst].
    (* members *)
    assert (VM : forall cubes, tidy href_of cubes ->
      (forall h h', cube_for href_of cubes (nwHcDim w) item dim h -> cube_for href_of cubes (nwHcDim w) item dim h' -> h = h') ->
      exists l3, member_visits (nwHcDim w) (nwDimDomain w) (nwDomains w) dim
                   (hypercube_hrefs href_of cubes (nwHcDim w) item dim) = l3 /\
                 NoDup (flat_map nodes l3) /\
                 forall h, In h (flat_map nodes l3) <->
                   (exists hc, cube_for href_of cubes (nwHcDim w) item dim hc) /\
                   (exists m, edge href_of (nwDimDomain w) dim m) /\ In h (forest_hrefs href_of (nwDomains w))).
    { intros cubes TC UC. eexists. split; [reflexivity|]. unfold member_visits.
      destruct (cube_visits (fun x => flat_map (fun d => if String.eqb dim (at_node d) then
         flat_map (fun dd => if String.eqb (at_node d) (at_node dd) then nwDomains w else []) (ra_children (nwDimDomain w))
         else []) (ra_children x)) _ _ _ _ TC TH UC) as [[NO E]|(hc & x & C & Hx & _ & HD & E)]; rewrite E.
      - split; [constructor|]. intro h. split; [intros []|]. intros [(hc & H) _]. now apply NO in H.
      - destruct (pick_one (fun d => flat_map (fun dd => if String.eqb (at_node d) (at_node dd) then nwDomains w else [])
           (ra_children (nwDimDomain w))) (ra_children x) dim (proj2 TH x Hx)) as [(d & Hd & Ed & ->)|[NO _]].
        + rewrite Ed. destruct (pick_one (fun _ => nwDomains w) (ra_children (nwDimDomain w)) dim (proj1 TD)) as [(dd & Hdd & Edd & ->)|[NO ->]].
          * rewrite <- forest_hrefs_nodes. split; [exact NM|]. intro h. split; [|tauto]. intro H. split; [now exists hc|]. split; auto.
            specialize (NC dd Hdd). destruct (ra_children dd) as [|m l] eqn:EM; [contradiction|].
            exists (at_node m), dd, m. split; auto. split; auto. split; auto. rewrite EM. now left.
          * split; [constructor|]. intro h. split; [intros []|]. intros (_ & (m & dd & c & Hdd & Edd & _) & _). now apply NO in Edd.
        + exfalso. destruct HD as (d & Hd & Ed). now apply (NO d). }
    destruct (VM (nwInclusive w) TI UI) as (l3 & M3 & N3 & I3). destruct (VM (nwExclusive w) TE UE) as (l4 & M4 & N4 & I4).
    rewrite (add_members_eq true), M4, (add_members_eq false), M3.
    destruct (traverse_all false l3 (EDState [] (map (fun n => EM (at_node n) (lbl (at_node n)) true false) l1 ++
      map (fun n => EM (at_node n) (lbl (at_node n)) true true) l2) (map (fun n => lbl (at_node n)) l1 ++ map (fun n => lbl (at_node n)) l2))%list N3)
      as (seen3 & E3); [intros ? _ []|]. rewrite E3. cbn [esRet esPacks].
    match goal with |- context [fold_left _ l4 (EDState [] ?r ?p)] =>
      destruct (traverse_all true l4 (EDState [] r p) N4) as (seen4 & E4); [intros ? _ []|] end.
    rewrite E4. cbn [esRet]. rewrite isort_in, !in_app_iff.
    unfold in_domain. destruct e as [h lb' d s]. cbn [emHref emLabel emDefault emStruck]. split.
    - intros [[[H|H]|H]|H]; apply in_map_iff in H; destruct H as (n & [= <- <- <- <-] & Hn); split; auto.
      + apply I1. now apply (in_map (fun n => at_node n)).
      + apply I2. now apply (in_map (fun n => at_node n)).
      + now apply I3.
      + now apply I4.
    - intros [-> H]. destruct d, s.
      + apply I2, tops_In in H. destruct H as (c & Hc & <-). left; left; right. apply in_map_iff. exists c. auto.
      + apply I1, tops_In in H. destruct H as (c & Hc & <-). left; left; left. apply in_map_iff. exists c. auto.
      + apply I4 in H. right. apply in_map_iff. exists h. auto.
      + apply I3 in H. left; right. apply in_map_iff. exists h. auto.
  Qed.
End EffectiveDomain.

Lemma node_locators r n : node_of r n -> In (ra_locator n) (ra_locator r :: locators_below r).
Proof.
  intro H. induction r as [l o cs IH] using rarc_rect'. apply node_of_inv in H. destruct H as [->|(c & Hc & H)]; [now left|].
  right. cbn [locators_below ra_children] in *. apply in_flat_map. exists c. split; auto. rewrite Forall_forall in IH. now apply IH.
Qed.

(** ** Primary items *)
Lemma hypercube_domains_In dim_domain dim_default n :
  In (ra_locator n) (hypercube_domains dim_domain dim_default) <-> arc_target dim_domain n \/ arc_target dim_default n.
Proof.
  assert (K : forall net, In (ra_locator n) (flat_map (fun d => map ra_locator (ra_children d)) (ra_children net)) <-> arc_target net n).
  { intro net. rewrite in_flat_map. unfold arc_target. split.
    - intros (t & Ht & H). apply in_map_iff in H. destruct H as (c & E & Hc). exists t, c. auto.
    - intros (t & c & Ht & Hc & E). exists t. split; auto. rewrite <- E. now apply in_map. }
  unfold hypercube_domains. rewrite in_app_iff, !K. tauto.
Qed.
Lemma split_primary tree k : primary_roots tree k (fst (link_networks tree k)).
Proof.
  unfold primary_roots, link_networks, split_networks. cbn [fst].
  change (dim_arcrole "domain-member") with DomainMemberArcrole.
  change (dim_arcrole "dimension-domain") with DimensionDomainArcrole.
  change (dim_arcrole "dimension-default") with DimensionDefaultArcrole.
  apply those_filter. intro n. rewrite negb_true_iff.
  rewrite (mem_false String.eqb seqP), hypercube_domains_In. tauto.
Qed.

(** ** Root domains *)
Lemma listing_items lbl role lb root :
  orders_are_numbers root ->
  lists_items lbl role lb root
    (map (fun x => let h := map_locator_to_href role lb (fst x) in IndentedLabel h (lbl h) (snd x)) (listing root 0)).
Proof.
  intro HN. exists (listing root 0). split; [now apply listing_preorder|].
  induction (listing root 0) as [|x l IH]; cbn [map]; constructor; auto. cbn. split; [apply locates_fun|auto].
Qed.
Lemma locates_eq {A} (lb : linkbase A) role l h : locates lb role l h <-> map_locator_to_href role lb l = h.
Proof.
  split; [intro H; eapply locates_unique; [apply locates_fun|exact H]|intros <-; apply locates_fun].
Qed.

Section RootDomains.
  Variable tree : list arc -> string -> rarc.
  Variable lbl : string -> label_pack.
  Variable concept_of : string -> option concept.
  Variable genv : nat -> grid_env.
  Variable dims_order : linkbase darc -> link darc -> list (linkbase darc).
  Variable entity role : string.

  (** what one step adds *)
  Definition built (lb : linkbase darc) (k : link darc) (root : rarc) (i : nat) (rd : root_domain) : Prop :=
    let g := genv i in
    let href_of := map_locator_to_href role lb in
    let rows := rdHref rd :: map ilHref (rdItems rd) in
    let dims := dimension_hrefs role (lArcs k) (dims_order lb k) in
    rdHref rd = href_of (ra_locator root) /\ rdLabel rd = lbl (rdHref rd) /\
    rdItems rd = map (fun x => let h := href_of (fst x) in IndentedLabel h (lbl h) (snd x)) (listing root 0) /\
    rdDimensions rd = map (fun h => Labelled h (lbl h)) dims /\
    rdDomains rd = map (fun i => map (fun d => fst (get_effective_domain href_of lbl (snd (link_networks tree k)) i d)) dims) rows /\
    exists cols seg scen packs shown,
      get_relevant_contexts tree lbl concept_of (ge_typed_order g) entity (ge_instances g) rows
        = Ok (cols, seg, scen, packs) /\
      rdPeriods rd = map rcPeriod cols /\
      get_factual_quadrant tree (ge_cell g) (ge_id_order g) (ge_id_order_final g) rows cols shown
        = Ok (rdFacts rd, rdFootnoteGrid rd, rdFootnotes rd) /\
      get_member_grid (ge_member_order g) cols seg scen = Ok (rdMembers rd, rdVoid rd).

  Inductive built_all : list (linkbase darc * link darc * rarc) -> nat -> list root_domain -> Prop :=
  | ba_nil i : built_all [] i []
  | ba_cons lb k root l i rd rds : built lb k root i rd -> built_all l (S i) rds -> built_all ((lb, k, root) :: l) i (rd :: rds).
  Lemma built_all_app l l' i rds rds' :
    built_all l i rds -> built_all l' (i + List.length rds) rds' -> built_all (l ++ l')%list i (rds ++ rds')%list.
  Proof.
    intro H. revert l' rds'. induction H as [|lb k root l i rd rds B H IH]; intros l' rds' H'; cbn [app].
    - cbn in H'. now rewrite Nat.add_0_r in H'.
    - constructor; auto. apply IH. cbn [List.length] in H'. now rewrite <- plus_n_Sm in H'.
  Qed.
  Definition extends (l : list (linkbase darc * link darc * rarc)) (st st' : d_state) : Prop :=
    exists new, dsRet st' = (dsRet st ++ new)%list /\ built_all l (List.length (dsRet st)) new.
  Lemma extends_trans l l' st st1 st2 : extends l st st1 -> extends l' st1 st2 -> extends (l ++ l') st st2.
  Proof.
    intros (n1 & E1 & B1) (n2 & E2 & B2). exists (n1 ++ n2)%list. split; [rewrite E2, E1; now rewrite app_assoc|].
    apply built_all_app; auto. rewrite E1, app_length in B2. exact B2.
  Qed.
  Lemma foldM_extends {B} (f : d_state -> B -> res d_state) (g : B -> list (linkbase darc * link darc * rarc)) l st st' :
    (forall st x st', f st x = Ok st' -> extends (g x) st st') -> foldM f l st = Ok st' -> extends (flat_map g l) st st'.
  Proof.
    intro S. revert st. induction l as [|x l IH]; intros st; cbn [foldM flat_map].
    - intros [= <-]. exists []. split; [now rewrite app_nil_r|constructor].
    - destruct (f st x) as [st1| |] eqn:E; cbn [bind]; try discriminate. intro H. eapply extends_trans; eauto.
  Qed.
  Lemma d_root_built lb k st root st' :
    d_root tree lbl concept_of genv entity role lb (snd (link_networks tree k))
      (dimension_hrefs role (lArcs k) (dims_order lb k)) st root = Ok st' ->
    extends [(lb, k, root)] st st'.
  Proof.
    unfold d_root. cbv zeta. unfold get_effective_domain_grid. cbv zeta.
    destruct (get_relevant_contexts _ _ _ _ _ _ _) as [[[[cols seg] scen] cpacks]| |] eqn:E1; cbn [bind]; try discriminate.
    destruct (get_member_grid _ _ _ _) as [[members void]| |] eqn:E2; cbn [bind]; try discriminate.
    destruct (ge_destruct _ _) as [roles langs].
    destruct (get_factual_quadrant _ _ _ _ _ _ _) as [[[facts fgrid] notes]| |] eqn:E3; cbn [bind]; try discriminate.
    intros [= <-]. cbn [dsRet]. eexists. split; [reflexivity|]. constructor; [|constructor].
    unfold built. cbn [rdHref rdLabel rdItems rdDimensions rdDomains rdPeriods rdFacts rdFootnoteGrid rdFootnotes rdMembers rdVoid].
    repeat (split; [reflexivity|]). exists cols, seg, scen, cpacks, (dsLangs st ++ langs)%list. auto.
  Qed.
  Definition net_roots (lbs : list (linkbase darc)) : list (linkbase darc * link darc * rarc) :=
    flat_map (fun lk => map (pair lk) (fst (link_networks tree (snd lk)))) (net_links role lbs).
  Lemma net_roots_network lbs : network_roots tree role lbs (net_roots lbs).
  Proof.
    exists (net_links role lbs), (map (fun lk => fst (link_networks tree (snd lk))) (net_links role lbs)).
    split; [apply net_links_network|]. split.
    - induction (net_links role lbs); constructor; auto. apply split_primary.
    - symmetry. apply (flat_map_combine (fun lk => fst (link_networks tree (snd lk))) pair).
  Qed.
  Lemma root_domains_built lbs rds roles langs :
    get_root_domains tree lbl concept_of genv dims_order entity role lbs = Ok (rds, roles, langs) ->
    built_all (net_roots lbs) 0 rds.
  Proof.
    unfold get_root_domains.
    destruct (foldM _ lbs _) as [st| |] eqn:E; cbn [bind]; try discriminate. intros [= <- _ _].
    assert (X : extends (net_roots lbs) (DState [] [] [] []) st).
    { unfold net_roots, net_links. rewrite flat_map_flat_map. revert E. apply foldM_extends. intros s lb s' E.
      rewrite flat_map_map. cbn [snd]. revert E. apply foldM_extends. clear. intros s k s' E. unfold d_link in E.
      cbv zeta in E. destruct (ge_destruct _ _) as [r l]. destruct (link_networks tree k) as [primary w] eqn:LN. cbn [fst].
      assert (W : w = snd (link_networks tree k)) by now rewrite LN. subst w.
      apply (foldM_extends _ (fun root => [(lb, k, root)])) in E; [|intros; now apply d_root_built].
      destruct E as (new & E1 & E2). cbn [dsRet] in *. exists new. split; auto. }
    destruct X as (new & -> & B). exact B.
  Qed.
  Lemma built_all_nth l i rds :
    built_all l i rds -> List.length rds = List.length l /\
    forall n lb k root rd, nth_error l n = Some (lb, k, root) -> nth_error rds n = Some rd -> built lb k root (i + n) rd.
  Proof.
    induction 1 as [|lb k root l i rd rds B H [L IH]]; cbn [List.length]; [split; auto; now intros [|n]|].
    split; [now rewrite L|]. intros [|n] lb' k' root' rd'; cbn [nth_error].
    - intros [= <- <- <-] [= <-]. now rewrite Nat.add_0_r.
    - intros H1 H2. replace (i + S n) with (S i + n) by lia. eauto.
  Qed.
  (** *** The label roles of the root domains *)
  (** the concepts whose labels are collected *)
  Definition collected (rd : root_domain) : list string :=
    rdHref rd :: map ilHref (rdItems rd) ++ map lbHref (rdDimensions rd).
  Definition covered (st : d_state) : Prop :=
    (forall p, In p (dsPacks st) -> is_pack p) /\
    forall rd h r, In rd (dsRet st) -> In h (collected rd) -> has_role r (lbl h) -> In r (dsRoles st).
  Lemma relevant_packs typed_order insts hrefs cols seg scen packs :
    (forall h, is_pack (lbl h)) ->
    get_relevant_contexts tree lbl concept_of typed_order entity insts hrefs = Ok (cols, seg, scen, packs) ->
    forall p, In p packs -> is_pack p.
  Proof.
    intros LP E p Hp.
    destruct (relevant_spec tree lbl concept_of typed_order entity insts hrefs) as [[_ P]|[_ (css & F & Q)]]; [congruence|].
    rewrite Q in E. injection E as _ _ _ <-. apply in_flat_map in Hp. destruct Hp as (c & Hc & Hp).
    cbn in Hp. apply (context_packs _ tree typed_order) in Hp. destruct Hp as (h & d & -> & _). apply LP.
  Qed.
  Lemma d_root_covered lb w dims st root st' :
    (forall n x, Permutation (fst (ge_destruct (genv n) x)) (fst x)) ->
    (forall h, is_pack (lbl h)) -> (forall h r, In h dims -> has_role r (lbl h) -> In r (dsRoles st)) -> covered st ->
    d_root tree lbl concept_of genv entity role lb w dims st root = Ok st' ->
    covered st' /\ incl (dsRoles st) (dsRoles st').
  Proof.
    intros GD LP HD [CP CR]. unfold d_root. cbv zeta. unfold get_effective_domain_grid. cbv zeta.
    destruct (get_relevant_contexts _ _ _ _ _ _ _) as [[[[cols seg] scen] cpacks]| |] eqn:E1; cbn [bind]; try discriminate.
    destruct (get_member_grid _ _ _ _) as [[members void]| |] eqn:E2; cbn [bind]; try discriminate.
    set (packs := (dsPacks st ++ _)%list).
    destruct (ge_destruct _ _) as [roles langs] eqn:RL.
    destruct (get_factual_quadrant _ _ _ _ _ _ _) as [[[facts fgrid] notes]| |] eqn:E3; cbn [bind]; try discriminate.
    intros [= <-]. cbn [dsRet dsPacks dsRoles].
    assert (PK : forall p, In p packs -> is_pack p).
    { intros p Hp. unfold packs in Hp. rewrite !in_app_iff in Hp.
      destruct Hp as [Hp|[Hp|[Hp|[Hp|Hp]]]]; [auto| | |eapply relevant_packs; eauto|destruct Hp as [<-|[]]; auto].
      - apply in_map_iff in Hp. destruct Hp as (x & <- & Hx). apply in_map_iff in Hx. destruct Hx as (y & <- & _). apply LP.
      - apply in_flat_map in Hp. destruct Hp as (i & _ & Hp). apply in_flat_map in Hp. destruct Hp as (d & _ & Hp).
        now apply (effective_packs (map_locator_to_href role lb) lbl w i d). }
    split; [split; [exact PK|]|intros r Hr; apply in_app_iff; auto].
    intros rd h r Hrd Hh Hr. apply in_app_iff in Hrd. apply in_app_iff. destruct Hrd as [Hrd|[<-|[]]]; [left; eauto|].
    unfold collected in Hh. cbn [rdHref rdItems rdDimensions] in Hh.
    assert (X : In h dims \/ In (lbl h) packs).
    { destruct Hh as [<-|Hh]; [right; unfold packs; rewrite !in_app_iff; cbn; tauto|].
      apply in_app_iff in Hh. destruct Hh as [Hh|Hh].
      - right. unfold packs. rewrite !in_app_iff. right. left. apply in_map_iff in Hh. destruct Hh as (x & <- & Hx).
        apply in_map_iff. exists x. split; auto. apply in_map_iff in Hx. destruct Hx as (y & <- & _). reflexivity.
      - left. rewrite map_map in Hh. cbn in Hh. now rewrite map_id in Hh. }
    destruct X as [X|X]; [left; eauto|]. right.
    change roles with (fst (roles, langs)). rewrite <- RL. eapply Permutation_in; [apply Permutation_sym, GD|]. apply C36_roles; auto. eauto.
  Qed.
  Lemma foldM_covered {B} (f : d_state -> B -> res d_state) l st st' :
    (forall st x st', covered st -> f st x = Ok st' -> covered st') -> covered st -> foldM f l st = Ok st' -> covered st'.
  Proof.
    intro S. revert st. induction l as [|x l IH]; intros st C; cbn [foldM]; [now intros [= <-]|].
    destruct (f st x) as [st1| |] eqn:E; cbn [bind]; try discriminate. intro H. eapply IH; [|exact H]. eauto.
  Qed.
  Lemma root_domains_covered lbs rds roles langs :
    (forall n x, Permutation (fst (ge_destruct (genv n) x)) (fst x)) ->
    (forall h, is_pack (lbl h)) ->
    get_root_domains tree lbl concept_of genv dims_order entity role lbs = Ok (rds, roles, langs) ->
    forall rd h r, In rd rds -> In h (collected rd) -> has_role r (lbl h) -> In r roles.
  Proof.
    intros GD LP. unfold get_root_domains.
    destruct (foldM _ lbs _) as [st| |] eqn:E; cbn [bind]; try discriminate. intros [= <- <- _].
    enough (C : covered st) by apply C. revert E. apply foldM_covered; [|split; [intros ? []|intros ? ? ? []]].
    intros s lb s' C. apply foldM_covered; auto. clear s s' C. intros s k s' C. unfold d_link. cbv zeta.
    destruct (ge_destruct _ _) as [rs ls] eqn:RL. destruct (link_networks tree k) as [primary w].
    set (dims := dimension_hrefs _ _ _) in *.
    assert (HD : forall h r, In h dims -> has_role r (lbl h) -> In r rs).
    { intros h r Hh Hr. change rs with (fst (rs, ls)). rewrite <- RL. eapply Permutation_in; [apply Permutation_sym, GD|]. apply C36_roles.
      - intros p Hp. apply in_map_iff in Hp. destruct Hp as (x & <- & _). apply LP.
      - exists (lbl h). split; auto. now apply in_map. }
    set (s0 := DState _ _ _ _).
    assert (C0 : covered s0).
    { destruct C as [C1 C2]; split; [exact C1|]. intros rd h r A B D. change (In r (dsRoles s ++ rs)%list).
      apply in_app_iff. left. exact (C2 rd h r A B D). }
    assert (D0 : forall h r, In h dims -> has_role r (lbl h) -> In r (dsRoles s0)).
    { intros h r A B. change (In r (dsRoles s ++ rs)%list). apply in_app_iff. right. eauto. }
    clearbody s0. revert s0 C0 D0. induction primary as [|x l IH]; intros s0 C0 D0; cbn [foldM]; [now intros [= <-]|].
    destruct (d_root _ _ _ _ _ _ _ _ _ _ _) as [s1| |] eqn:E1; cbn [bind]; try discriminate.
    destruct (d_root_covered _ _ _ _ _ _ GD LP D0 C0 E1) as [C1 I1]. apply IH; auto. intros h r Hh Hr. apply I1. eauto.
  Qed.
  Lemma dimension_hrefs_NoDup arcs lbs : NoDup (dimension_hrefs role arcs lbs).
  Proof. apply dedup_NoDup. Qed.
  Lemma dimension_hrefs_In k lbs h :
    In h (dimension_hrefs role (lArcs k) lbs) <-> exists lb, In lb lbs /\ dimension_of role lb k h.
  Proof.
    unfold dimension_hrefs, dimension_of. rewrite dedup_In, in_flat_map. split.
    - intros (lb & Hlb & H). exists lb. split; auto. apply in_map_iff in H. destruct H as (a & E & Ha).
      apply filter_In in Ha. destruct Ha as [Ha Er]. exists a. split; auto. split; [now apply String.eqb_eq in Er|].
      now apply locates_eq.
    - intros (lb & Hlb & a & Ha & Er & L). exists lb. split; auto. apply in_map_iff. exists a.
      split; [now apply locates_eq|]. apply filter_In. split; auto. now apply String.eqb_eq.
  Qed.
End RootDomains.
