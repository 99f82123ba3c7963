(** * ColumnProofs: lemmas for ColumnProps *)
From Coq Require Import String List Bool Arith Lia Permutation.
From Verif Require Import GoBase GoSpec GoFacts AttrModel SchemaModel SchemaProofs LinkbaseModel LinkbaseSpec InstanceModel InstanceSpec InstanceProofs LabelModel LabelSpec LabelProofs
  FactModel FactSpec GridModel GridSpec GridProofs GridProps ResponseSpec ResponseProofs
  HydrateModel DiscoverModel LoadModel ReportModel ReportSpec ReportProofs ColumnSpec.
Import ListNotations.
Local Open Scope string_scope.

(** ** JSON *)
Lemma absent_of fields v k : object fields v -> ~ In k (map fst fields) -> absent v k.
Proof.
  intros (ms&->&F) N y P. inversion P as [| |l k' x p u I Q]; subst. apply N.
  clear -F I. induction F as [|[a A] [b B] fs ms [E _] F IH]; [destruct I|]. cbn in *. destruct I as [[= -> ->]|I]; [left; auto|right; auto].
Qed.
Lemma list_of_map {A B} (f : A -> B) (R : B -> value -> Prop) (S : A -> value -> Prop) l v :
  (forall a u, In a l -> R (f a) u -> S a u) -> list_of R (map f l) v -> list_of S l v.
Proof.
  intros H (vs&->&F). exists vs. split; auto. revert vs F. induction l as [|a l IH]; cbn [map]; intros vs F; inversion F; subst; constructor.
  - apply H; simpl; auto.
  - apply IH; auto. intros; apply H; simpl; auto.
Qed.
Lemma labelled_href l u : concept_with_labels l u -> href_shown (lbHref l) u.
Proof.
  intro O. eapply the_member_of; [exact O| |now left]. cbn. repeat constructor; simpl; intuition congruence.
Qed.

(** ** Dimension rows *)
Section Rows.
  Variable dims typed : list (string * labelled).
  Variable D T : labelled -> Prop.
  Variable R : void_cell -> Prop.
  Hypothesis HD : forall k d, sget k dims = Some d -> D d.
  Hypothesis HT : forall k t, sget k typed = Some t -> T t.
  Hypothesis R1 : forall p n d, D d -> R (VoidCell p n d None).
  Hypothesis R2 : forall p n d t, D d -> T t -> R (VoidCell p n d (Some t)).
  Definition good (st : vq_state) : Prop := (forall d, fst st = Some d -> D d) /\ Forall R (snd st).
  Definition keeps (f : vq_state -> res vq_state) : Prop := forall st st', good st -> f st = Ok st' -> good st'.
  Lemma run_keeps l : (forall f, In f l -> keeps f) -> keeps (run l).
  Proof.
    induction l as [|f l IH]; intros H st st' G; cbn [run]; [intros [= <-]; exact G|].
    destruct (f st) as [b|e|] eqn:E; cbn [bind]; try discriminate. apply IH.
    - intros f' Hf'. apply H. now right.
    - apply (H f (or_introl eq_refl) _ _ G E).
  Qed.
  Lemma indents_keep paren r : forall level, keeps (make_indents dims typed r paren level).
  Proof.
    induction r as [l o cs IH] using rarc_rect'. intros level st st' G. rewrite make_indents_eq.
    assert (K : keeps (run (map (fun c => make_indents dims typed c paren (S level)) (isort by_order cs)))).
    { apply run_keeps. intros f Hf. apply in_map_iff in Hf as (c&<-&Hc). apply isort_in in Hc. rewrite Forall_forall in IH. now apply IH. }
    destruct (match fst st with None => _ | Some _ => _ end) as [[dim ret]|] eqn:E.
    2:{ intros [= <-]. destruct G as [G _]. split; [exact G|constructor]. }
    assert (G' : good (dim, ret)).
    { destruct (fst st) as [x|] eqn:F; [|destruct (nonempty l)].
      - assert (st = (dim, ret)) as <- by congruence. exact G.
      - destruct (sget l dims) as [x|] eqn:S; [|discriminate]. injection E as <- <-. destruct G as [_ G2]. split; [intros y [= <-]; eauto|exact G2].
      - assert (st = (dim, ret)) as <- by congruence. exact G. }
    clear E G st. destruct G' as [G1 G2]. cbn in G1, G2.
    assert (K1 : forall ret1, Forall R ret1 ->
      (if Nat.ltb 1 level && nonempty l then
         match sget l typed with
         | None => Ok (dim, [])
         | Some t => match dim with None => Panic
                     | Some d => run (map (fun c => make_indents dims typed c paren (S level)) (isort by_order cs)) (dim, ret1 ++ [VoidCell paren level d (Some t)])%list end
         end
       else run (map (fun c => make_indents dims typed c paren (S level)) (isort by_order cs)) (dim, ret1)) = Ok st' -> good st').
    { intros ret1 F. destruct (Nat.ltb 1 level && nonempty l).
      - destruct (sget l typed) as [t|] eqn:S.
        + destruct dim as [d|]; [|discriminate]. apply K. split; [exact G1|]. apply Forall_app. split; auto. constructor; [|constructor].
          apply R2; eauto.
        + intros [= <-]. split; auto. constructor.
      - apply K. split; auto. }
    destruct (Nat.eqb level 1).
    - destruct dim as [d|]; cbn [bind]; [|discriminate]. apply K1. apply Forall_app. split; auto.
    - cbn [bind]. apply K1. exact G2.
  Qed.
End Rows.

Lemma void_rows mo cols seg scen members void : (forall l, Permutation (mo l) l) -> get_member_grid mo cols seg scen = Ok (members, void) ->
  forall v, In v void ->
    (exists c m, In c cols /\ In m (rcMembers c) /\ lbHref (rmDimension m) <> "" /\ rmDimension m = vcDimension v) /\
    (forall t, vcTypedDomain v = Some t -> exists c m, In c cols /\ In m (rcMembers c) /\ rmTypedDomain m = Some t).
Proof.
  intros MO E. unfold get_member_grid in E. destruct cols as [|c0 cs]; [injection E as <- <-; intros ? []|].
  set (cols := c0 :: cs) in *. clearbody cols.
  destruct (get_void_quadrant _ _ _ _) as [v0|?|] eqn:V; cbn [bind] in E; try discriminate. injection E as _ <-.
  unfold get_void_quadrant in V. cbv zeta in V.
  set (ms := dimension_members cols) in *.
  set (R := fun v => (exists m, In m ms /\ rmDimension m = vcDimension v) /\ (forall t, vcTypedDomain v = Some t -> exists m, In m ms /\ rmTypedDomain m = Some t)).
  assert (F : Forall R v0).
  { destruct (make_indents _ _ (reduce_trees (isort locator_less seg)) _ _ _) as [st1|?|] eqn:E1; cbn [bind] in V; try discriminate.
    destruct (make_indents _ _ (reduce_trees (isort locator_less scen)) _ _ _) as [st2|?|] eqn:E2; cbn [bind] in V; try discriminate.
    injection V as <-.
    set (D := fun d => exists m, In m ms /\ rmDimension m = d). set (T := fun t => exists m, In m ms /\ rmTypedDomain m = Some t).
    assert (K : forall paren r, keeps D R (make_indents (all_dimension_map ms) (all_typed_domain_map ms) r paren 0)).
    { intros. apply indents_keep with (T := T).
      - intros k d S. apply dims_sound in S as (_&m&Hm&<-). exists m. auto.
      - intros k t S. apply typed_sound in S as (_&m&Hm&St). exists m. auto.
      - intros p n d (m&Hm&<-). split; [exists m; auto|]. discriminate.
      - intros p n d t (m&Hm&<-) (m'&Hm'&Et). split; [exists m; auto|]. intros t' [= <-]. exists m'. auto. }
    eapply K; [eapply K; [|exact E1]|exact E2]. split; [discriminate|]. cbn [snd]. apply Forall_forall. intros v Hv.
    destruct (explicit_rows_In mo MO ms v Hv) as (N&_&_&m&e&Hm&_&Ed). split; [exists m; auto|]. rewrite N. discriminate. }
  intros v Hv. rewrite Forall_forall in F. destruct (F v Hv) as ((m&Hm&Ed)&HT). split.
  - apply In_member in Hm as (c&Hc&Hm&N). exists c, m. auto.
  - intros t Ht. destruct (HT t Ht) as (m'&Hm'&Et). apply In_member in Hm' as (c&Hc&Hm'&_). exists c, m'. auto.
Qed.

(** ** The members of a column *)
Lemma find_app {A} (P : A -> bool) l m : find P (l ++ m) = match find P l with Some x => Some x | None => find P m end.
Proof. induction l as [|a l IH]; cbn; auto. destruct (P a); auto. Qed.
Lemma find_map' {A B} (f : A -> B) (P : B -> bool) l : find P (map f l) = option_map f (find (fun a => P (f a)) l).
Proof. induction l as [|a l IH]; cbn; auto. destruct (P (f a)); auto. Qed.
Lemma find_nothing {A} (P : A -> bool) l : (forall x, In x l -> P x = false) -> find P l = None.
Proof. induction l as [|a l IH]; cbn; intro H; auto. rewrite (H a) by auto. apply IH. auto. Qed.

(** a row for every typed domain *)
Section Has.
  Variables dims typed : list (string * labelled).
  Variable D : labelled -> Prop.
  Local Notation T := (fun _ : labelled => True).
  Local Notation ok := (row_ok D T).
  Definition has_deep (P : void_cell -> Prop) (f : vq_state -> res vq_state) : Prop :=
    forall d ret, D d -> exists rows, f (Some d, ret) = Ok (Some d, (ret ++ rows)%list) /\ Forall ok rows /\ exists x, In x rows /\ P x.
  Definition has_shallow (P : void_cell -> Prop) (f : vq_state -> res vq_state) : Prop :=
    forall dim ret, dim_ok D dim -> exists dim' rows,
      f (dim, ret) = Ok (dim', (ret ++ rows)%list) /\ dim_ok D dim' /\ Forall ok rows /\ exists x, In x rows /\ P x.
  Lemma run_has_deep P l f : Forall (deep D T) l -> In f l -> has_deep P f -> has_deep P (run l).
  Proof.
    induction 1 as [|g l Hg Hl IH]; intros Hf HP d ret Hd; [destruct Hf|]. cbn [run]. destruct Hf as [->|Hf].
    - destruct (HP d ret Hd) as (r1&->&F1&x&Hx&Px). cbn [bind]. destruct (run_deep D T l Hl d (ret ++ r1)%list Hd) as (r2&->&F2).
      exists (r1 ++ r2)%list. rewrite app_assoc. split; auto. split; [apply Forall_app; auto|]. exists x. split; auto. apply in_or_app. auto.
    - destruct (Hg d ret Hd) as (r1&->&F1). cbn [bind]. destruct (IH Hf HP d (ret ++ r1)%list Hd) as (r2&->&F2&x&Hx&Px).
      exists (r1 ++ r2)%list. rewrite app_assoc. split; auto. split; [apply Forall_app; auto|]. exists x. split; auto. apply in_or_app. auto.
  Qed.
  Lemma run_has_shallow P l f : Forall (shallow D T) l -> In f l -> has_shallow P f -> has_shallow P (run l).
  Proof.
    induction 1 as [|g l Hg Hl IH]; intros Hf HP d ret Hd; [destruct Hf|]. cbn [run]. destruct Hf as [->|Hf].
    - destruct (HP d ret Hd) as (d1&r1&->&D1&F1&x&Hx&Px). cbn [bind]. destruct (run_shallow D T l Hl d1 (ret ++ r1)%list D1) as (d2&r2&->&D2&F2).
      exists d2, (r1 ++ r2)%list. rewrite app_assoc. split; auto. split; auto. split; [apply Forall_app; auto|]. exists x. split; auto. apply in_or_app. auto.
    - destruct (Hg d ret Hd) as (d1&r1&->&D1&F1). cbn [bind]. destruct (IH Hf HP d1 (ret ++ r1)%list D1) as (d2&r2&->&D2&F2&x&Hx&Px).
      exists d2, (r1 ++ r2)%list. rewrite app_assoc. split; auto. split; auto. split; [apply Forall_app; auto|]. exists x. split; auto. apply in_or_app. auto.
  Qed.
  Lemma runs_deep paren level cs : 2 <= level -> (forall n, In n cs -> deep_tree typed n) ->
    Forall (deep D T) (map (fun c => make_indents dims typed c paren level) (isort by_order cs)).
  Proof.
    intros L H. apply Forall_forall. intros f Hf. apply in_map_iff in Hf as (c&<-&Hc). rewrite isort_in in Hc. apply indents_deep; auto.
  Qed.
  Definition for_domain (l : string) (x : void_cell) : Prop := exists t, vcTypedDomain x = Some t /\ sget l typed = Some t.
  Lemma indents_has_deep paren r level : deep_tree typed r -> 2 <= level -> has_deep (for_domain (ra_locator r)) (make_indents dims typed r paren level).
  Proof.
    destruct r as [l o cs]. intros HG HL d ret Hd. rewrite make_indents_eq. cbn [fst snd ra_locator].
    destruct (Nat.eqb_spec level 1) as [->|_]; [lia|]. cbn [bind].
    destruct (HG _ (node_self _)) as [NE NT]. cbn [ra_locator] in NE, NT. apply nonempty_iff in NE. rewrite NE.
    replace (Nat.ltb 1 level) with true by (symmetry; apply Nat.ltb_lt; lia). cbn [andb].
    destruct (sget l typed) as [t|] eqn:ET; [|congruence]. cbv zeta.
    destruct (run_deep D T _ (runs_deep paren (S level) cs ltac:(lia) (fun n Hn k Hk => HG k (node_below (RArc l o cs) n k Hn Hk))) d (ret ++ [VoidCell paren level d (Some t)])%list Hd) as (rows&->&F).
    exists (VoidCell paren level d (Some t) :: rows). rewrite <- app_assoc. split; auto. split; [constructor; auto; split; auto|].
    eexists. split; [now left|]. exists t. auto.
  Qed.
  Lemma indents_has_shallow paren r n : shallow_tree dims typed D r -> In n (ra_children r) ->
    has_shallow (for_domain (ra_locator n)) (make_indents dims typed r paren 1).
  Proof.
    destruct r as [l o cs]. intros (NE & (d0 & E0 & D0) & HD) Hn dim ret Hd. cbn [ra_locator ra_children] in *.
    rewrite make_indents_eq. cbn [fst snd]. apply nonempty_iff in NE. rewrite NE, E0.
    assert (RD : has_deep (for_domain (ra_locator n)) (run (map (fun c => make_indents dims typed c paren 2) (isort by_order cs)))).
    { eapply run_has_deep; [apply runs_deep; auto| |apply (indents_has_deep paren n 2); auto]. apply in_map_iff. exists n. split; auto. now rewrite isort_in. }
    assert (G : forall d, D d -> exists dim' rows,
      run (map (fun c => make_indents dims typed c paren 2) (isort by_order cs))
          (Some d, (ret ++ [VoidCell paren 1 d None])%list) = Ok (dim', (ret ++ rows)%list) /\
      dim_ok D dim' /\ Forall ok rows /\ exists x, In x rows /\ for_domain (ra_locator n) x).
    { intros d Dd. destruct (RD d (ret ++ [VoidCell paren 1 d None])%list Dd) as (rows & -> & F & x & Hx & Px).
      exists (Some d), (VoidCell paren 1 d None :: rows). rewrite <- app_assoc. split; auto.
      split; [intros d' [= <-]; auto|]. split; [constructor; auto; split; auto; cbn; discriminate|]. exists x. split; auto. now right. }
    destruct dim as [d|]; cbn [Nat.eqb bind Nat.ltb Nat.leb andb]; cbv zeta; apply G; auto.
  Qed.
  Lemma indents_has_root paren o cs d n : Forall (shallow_tree dims typed D) cs -> In d cs -> In n (ra_children d) ->
    has_shallow (for_domain (ra_locator n)) (make_indents dims typed (RArc "" o cs) paren 0).
  Proof.
    intros F Hd Hn dim ret Hdim. rewrite make_indents_eq. cbn [fst snd nonempty]. rewrite Forall_forall in F.
    assert (RS : has_shallow (for_domain (ra_locator n)) (run (map (fun c => make_indents dims typed c paren 1) (isort by_order cs)))).
    { eapply run_has_shallow; [| |apply (indents_has_shallow paren d n); auto].
      - apply Forall_forall. intros f Hf. apply in_map_iff in Hf as (c&<-&Hc). rewrite isort_in in Hc. apply indents_shallow; auto.
      - apply in_map_iff. exists d. split; auto. now rewrite isort_in. }
    destruct (RS dim ret Hdim) as (dim'&rows&E&H1&H2&H3).
    destruct dim as [d'|]; cbn [Nat.eqb bind Nat.ltb Nat.leb andb]; cbv zeta; eauto 8.
  Qed.
End Has.
Lemma reduced_has trees dim dm o1 o2 o3 : Forall nonempty_tree trees -> In (RArc "" o1 [RArc dim o2 [RArc dm o3 []]]) trees ->
  exists d n, In d (ra_children (reduce_trees trees)) /\ In n (ra_children d) /\ ra_locator n = dm.
Proof.
  intros F H. rewrite reduce_trees_eq by auto. cbn [ra_children]. set (ch := flat_map ra_children trees).
  assert (P : path_in (dedup_children (forest_height ch) ch 0) [dim; dm]).
  { apply dedup_paths; auto. apply (path_down _ (RArc dim o2 [RArc dm o3 []])); [apply in_flat_map; eexists; split; [exact H|now left]|].
    apply (path_here _ (RArc dm o3 [])). now left. }
  apply path_in_app in P as (d&Hd&[E|(q&[= _ <-]&Q)]); [discriminate E|]. apply path_in_app in Q as (n&Hn&[[= E]|(q&[= _ <-]&Q)]); [eauto 8|inversion Q].
Qed.
Lemma void_has mo (D : labelled -> Prop) cs seg scen :
  Forall (reported_tree cs) seg -> Forall (reported_tree cs) scen ->
  (forall t d x, In t (seg ++ scen)%list -> In d (ra_children t) -> sget (ra_locator d) (all_dimension_map (dimension_members cs)) = Some x -> D x) ->
  forall dim dm o1 o2 o3, In (RArc "" o1 [RArc dim o2 [RArc dm o3 []]]) (seg ++ scen)%list ->
  exists void x, get_void_quadrant mo cs seg scen = Ok void /\ In x void /\ D (vcDimension x) /\ exists t, vcTypedDomain x = Some t /\ lbHref t = dm.
Proof.
  intros F1 F2 HD dim dm o1 o2 o3 H. set (dims := all_dimension_map (dimension_members cs)) in *. set (typed := all_typed_domain_map (dimension_members cs)).
  destruct (shallow_trees D cs seg F1) as (p1&ch1&E1&S1). { intros t d x Ht Hd Ex. apply (HD t d x); auto. apply in_or_app; auto. }
  destruct (shallow_trees D cs scen F2) as (p2&ch2&E2&S2). { intros t d x Ht Hd Ex. apply (HD t d x); auto. apply in_or_app; auto. }
  assert (N1 : Forall nonempty_tree seg) by (eapply Forall_impl; [|exact F1]; intros t X; apply X).
  assert (N2 : Forall nonempty_tree scen) by (eapply Forall_impl; [|exact F2]; intros t X; apply X).
  assert (DN : dim_ok D None) by discriminate.
  assert (G : forall x, row_ok D (fun _ => True) x -> for_domain typed dm x -> D (vcDimension x) /\ exists t, vcTypedDomain x = Some t /\ lbHref t = dm).
  { intros x [Dx _] (t&Tx&Et). split; auto. exists t. split; auto. apply typed_sound in Et as [-> _]. reflexivity. }
  unfold get_void_quadrant. cbv zeta. rewrite E1, E2. fold (explicit_rows mo (dimension_members cs)). fold dims typed.
  apply in_app_iff in H as [H|H].
  - destruct (reduced_has _ _ _ _ _ _ N1 H) as (d&n&Hd&Hn&<-). rewrite E1 in Hd. cbn [ra_children] in Hd.
    destruct (indents_has_root dims typed D false p1 ch1 d n S1 Hd Hn None (explicit_rows mo (dimension_members cs)) DN) as (d1&r1&->&Hd1&G1&x&Hx&Px). cbn [bind].
    destruct (indents_root dims typed D (fun _ => True) (fun _ _ _ => I) true p2 ch2 S2 d1 (explicit_rows mo (dimension_members cs) ++ r1)%list Hd1) as (d2&r2&->&Hd2&G2). cbn [bind snd].
    eexists. exists x. split; [reflexivity|]. rewrite Forall_forall in G1. split; [rewrite !in_app_iff; auto|]. apply G; auto.
  - destruct (reduced_has _ _ _ _ _ _ N2 H) as (d&n&Hd&Hn&<-). rewrite E2 in Hd. cbn [ra_children] in Hd.
    destruct (indents_root dims typed D (fun _ => True) (fun _ _ _ => I) false p1 ch1 S1 None (explicit_rows mo (dimension_members cs)) DN) as (d1&r1&->&Hd1&G1). cbn [bind].
    destruct (indents_has_root dims typed D true p2 ch2 d n S2 Hd Hn d1 (explicit_rows mo (dimension_members cs) ++ r1)%list Hd1) as (d2&r2&->&Hd2&G2&x&Hx&Px). cbn [bind snd].
    eexists. exists x. split; [reflexivity|]. rewrite Forall_forall in G2. split; [rewrite !in_app_iff; auto|]. apply G; auto.
Qed.

Section Column.
  Variable tree : list arc -> string -> rarc.
  Variable lbl : string -> label_pack.
  Variable order : context -> typed_member -> list (string * string).
  Hypothesis permuted : forall c t, Permutation (order c t) (tmMap t).
  Notation column c := (fst (mk_col tree lbl order c)).

  Definition explicit_as (s : bool) (e : explicit_member) : relevant_member :=
    RelevantMember (Labelled (emDimHref e) (lbl (emDimHref e))) (Some (Labelled (emMemHref e) (lbl (emMemHref e)))) "" None s.
  Lemma members_eq c : rcMembers (column c) =
    (map (explicit_as true) (dcExplicit (ctxSegment c)) ++ typed_members lbl order c (dcTyped (ctxSegment c)) ++
     map (explicit_as false) (dcExplicit (ctxScenario c)) ++ typed_members lbl order c (dcTyped (ctxScenario c)))%list.
  Proof. reflexivity. Qed.
  Lemma typed_In c l m : In m (typed_members lbl order c l) <->
    exists t domain text, In t l /\ In (domain, text) (tmMap t) /\
      m = RelevantMember (Labelled (tmDimHref t) (lbl (tmDimHref t))) None text (Some (Labelled domain (lbl domain))) false.
  Proof.
    unfold typed_members, get_typed_member. rewrite in_flat_map. split.
    - intros (t&Ht&Hm). apply in_map_iff in Hm as ([d x]&<-&Hx). exists t, d, x. split; auto. split; auto. eapply Permutation_in; eauto.
    - intros (t&d&x&Ht&Hx&->). exists t. split; auto. apply in_map_iff. exists (d, x). split; auto.
      eapply Permutation_in; [apply Permutation_sym, permuted|exact Hx].
  Qed.
  Lemma member_In c m : In m (rcMembers (column c)) <->
    (exists s e, In e (explicit_of c) /\ m = explicit_as s e /\ In e (dcExplicit (if s then ctxSegment c else ctxScenario c))) \/
    (exists t domain text, In t (typed_of c) /\ In (domain, text) (tmMap t) /\
       m = RelevantMember (Labelled (tmDimHref t) (lbl (tmDimHref t))) None text (Some (Labelled domain (lbl domain))) false).
  Proof.
    rewrite members_eq, !in_app_iff, !in_map_iff, !typed_In. unfold explicit_of, typed_of. split.
    - intros [(e&<-&He)|[(t&d&x&Ht&Hx&E)|[(e&<-&He)|(t&d&x&Ht&Hx&E)]]].
      + left. exists true, e. rewrite in_app_iff. auto.
      + right. exists t, d, x. rewrite in_app_iff. auto.
      + left. exists false, e. rewrite in_app_iff. auto.
      + right. exists t, d, x. rewrite in_app_iff. auto.
    - intros [(s&e&_&->&He)|(t&d&x&Ht&Hx&E)].
      + destruct s; eauto 6.
      + apply in_app_iff in Ht as [Ht|Ht]; eauto 12.
  Qed.
  Lemma explicit_cell v c : vcTypedDomain v = None ->
    member_cell_at v (column c) =
    match find (fun e => String.eqb (emDimHref e) (lbHref (vcDimension v))) (explicit_of c) with
    | Some e => MemberCell (Some (Labelled (emMemHref e) (lbl (emMemHref e)))) ""
    | None => empty_member_cell
    end.
  Proof.
    intro N. unfold member_cell_at. rewrite members_eq, N. set (P := fun m => _).
    assert (T : forall l, find P (typed_members lbl order c l) = None).
    { intro l. apply find_nothing. intros m Hm. apply typed_In in Hm as (t&d&x&_&_&->). unfold P. cbn. apply andb_false_r. }
    assert (X : forall s l, find P (map (explicit_as s) l) = option_map (explicit_as s) (find (fun e => String.eqb (emDimHref e) (lbHref (vcDimension v))) l)).
    { intros s l. rewrite find_map'. f_equal. unfold P. cbn. induction l as [|e l IH]; cbn; auto. rewrite andb_true_r, IH. reflexivity. }
    rewrite !find_app, !T, !X. unfold explicit_of. rewrite find_app.
    destruct (find _ (dcExplicit (ctxSegment c))); [reflexivity|]. cbn [option_map].
    destruct (find _ (dcExplicit (ctxScenario c))); reflexivity.
  Qed.
  Lemma typed_cell v c d : vcTypedDomain v = Some d ->
    (exists text, gives c (lbHref (vcDimension v)) (lbHref d) text /\ member_cell_at v (column c) = MemberCell None text) \/
    ((forall text, ~ gives c (lbHref (vcDimension v)) (lbHref d) text) /\ member_cell_at v (column c) = empty_member_cell).
  Proof.
    intro N. unfold member_cell_at. rewrite N. set (P := fun m : relevant_member => (_ && _)%bool). destruct (find P (rcMembers (column c))) as [m|] eqn:F.
    - left. apply find_some in F as [Hm HP]. unfold P in HP. apply andb_true_iff in HP as [H1 H2]. apply String.eqb_eq in H1.
      apply member_In in Hm as [(s&e&_&->&_)|(t&dm&x&Ht&Hx&->)]; [discriminate H2|]. cbn in H1, H2 |- *. apply String.eqb_eq in H2. subst.
      exists x. split; [|reflexivity]. exists t. auto.
    - right. split; [|reflexivity]. intros x (t&Ht&Ed&Hx).
      assert (Hm : In (RelevantMember (Labelled (tmDimHref t) (lbl (tmDimHref t))) None x (Some (Labelled (lbHref d) (lbl (lbHref d)))) false) (rcMembers (column c))).
      { apply member_In. right. exists t, (lbHref d), x. auto. }
      pose proof (find_none _ _ F _ Hm) as G. unfold P in G. cbn in G. rewrite Ed, !String.eqb_refl in G. discriminate.
  Qed.

  Lemma cell_shown v c u : member_value (member_cell_at v (column c)) u ->
    member_shown (lbHref (vcDimension v), option_map lbHref (vcTypedDomain v)) c u.
  Proof.
    intro M. unfold member_shown. cbn [fst snd]. destruct (vcTypedDomain v) as [d|] eqn:E; cbn [option_map].
    - destruct (typed_cell v c d E) as [(x&G&C)|[G C]]; rewrite C in M; unfold member_value in M; cbn in M.
      + assert (ND : NoDup (map fst (optional "TypedMember" shows (if nonempty x then Some x else None)))) by (destruct (nonempty x); cbn; repeat constructor; auto).
        split; [apply (absent_of _ _ _ M); destruct (nonempty x); simpl; intuition congruence|]. left. exists x. split; auto.
        split; intro X.
        * eapply the_member_of; [exact M|exact ND|]. apply nonempty_iff in X. rewrite X. now left.
        * apply (absent_of _ _ _ M). subst x. cbn. auto.
      + split; [|right; split; [exact G|]]; apply (absent_of _ _ _ M); cbn; auto.
    - rewrite (explicit_cell v c E) in M.
      destruct (find _ (explicit_of c)) as [e|] eqn:F; unfold member_value in M; cbn in M.
      + split; [apply (absent_of _ _ _ M); simpl; intuition congruence|]. left. exists e. split.
        * apply (find_first_such _ (fun e => emDimHref e = lbHref (vcDimension v)) _ _ (fun e => String.eqb_eq _ _)) in F. exact F.
        * eapply the_member_impl; [|eapply the_member_of; [exact M|repeat constructor; auto|now left]]. intros y. apply labelled_href.
      + split; [apply (absent_of _ _ _ M); simpl; auto|]. right. split; [|apply (absent_of _ _ _ M); simpl; auto].
        intros e He X. apply (find_none _ _ F) in He. rewrite X, String.eqb_refl in He. discriminate.
  Qed.

  Lemma members_json mo cs seg scen members void periods fields v :
    (forall m, Permutation (mo m) m) ->
    (forall r, In r (seg ++ scen)%list <-> exists c t, In c cs /\ In t (typed_of c) /\ r = tree (tdom_arcs (tmArcs t)) typedDomainArcRole) ->
    get_member_grid mo (map (fun c => column c) cs) seg scen = Ok (members, void) ->
    object fields v -> NoDup (map fst fields) -> incl (columns_fields periods members void) fields ->
    members_shown tree v cs.
  Proof.
    intros MO TT E O ND I.
    set (row := fun x : void_cell => (lbHref (vcDimension x), option_map lbHref (vcTypedDomain x))).
    exists (map row void). pose proof (void_rows _ _ _ _ _ _ MO E) as VR.
    assert (MV : members = map (fun x => map (fun c => member_cell_at x (column c)) cs) void).
    { unfold get_member_grid in E. destruct cs as [|c0 cs']; [injection E as <- <-; reflexivity|]. cbn [map] in E.
      destruct (get_void_quadrant _ _ _ _) as [v0|?|]; cbn [bind] in E; try discriminate. injection E as <- <-.
      apply map_ext. intro x. cbn [map]. f_equal. now rewrite map_map. }
    split; [|split; [|split; [|split]]].
    - eapply the_member_impl; [|eapply the_member_of; [exact O|exact ND|apply I; right; right; now left]].
      intros x (us&->&F). exists us. split; auto. clear -F. revert us F. induction void as [|a void IH]; intros us F; inversion F as [|? u ? ? U F']; subst; constructor; auto.
      unfold dimension_value in U. cbn [fst snd row].
      assert (NF : NoDup (map fst ([("IsParenthesized", flag (vcParenthesized a)); ("Indentation", count (vcIndentation a)); ("Dimension", concept_with_labels (vcDimension a))]
                                     ++ optional "TypedDomain" concept_with_labels (vcTypedDomain a))%list)).
      { destruct (vcTypedDomain a); cbn; repeat constructor; simpl; intuition congruence. }
      split.
      + eapply the_member_impl; [intros y; apply labelled_href|]. eapply the_member_of; [exact U|exact NF|right; right; now left].
      + unfold row. cbn [snd]. destruct (vcTypedDomain a) as [t|]; cbn [option_map].
        * eapply the_member_impl; [intros y; apply labelled_href|]. eapply the_member_of; [exact U|exact NF|right; right; right; now left].
        * apply (absent_of _ _ _ U). simpl. intuition congruence.
    - eapply the_member_impl; [|eapply the_member_of; [exact O|exact ND|apply I; right; now left]].
      intros x (us&->&F). exists us. split; auto. rewrite MV in F. clear -F permuted. revert us F. induction void as [|a void IH]; intros us F; inversion F as [|? u ? ? U F']; subst; constructor; auto.
      eapply list_of_map; [|exact U]. intros c y _ Y. apply cell_shown, Y.
    - intros d t Hd. apply in_map_iff in Hd as (x&[= <- _]&Hx). destruct (VR x Hx) as [(r&m&Hr&Hm&NE&Ed) _]. rewrite <- Ed. split; auto.
      apply in_map_iff in Hr as (c&<-&Hc). exists c. split; auto. apply member_In in Hm as [(s&e&He&->&_)|(t'&dm&y&Ht&Hy&->)].
      + left. exists e. auto.
      + right. exists dm, y, t'. auto.
    - intros d t Hd. apply in_map_iff in Hd as (x&E'&Hx). unfold row in E'. destruct (vcTypedDomain x) as [t'|] eqn:Et; [|discriminate E']. injection E' as _ <-.
      destruct (VR x Hx) as [_ K]. destruct (K t' Et) as (r&m&Hr&Hm&Em). apply in_map_iff in Hr as (c&<-&Hc).
      apply member_In in Hm as [(s&e&He&->&_)|(t0&dm&y&Ht&Hy&->)]; [discriminate Em|]. injection Em as <-. exists c, (tmDimHref t0), y. split; auto. exists t0. auto.
    - intro SM.
      assert (NE : forall c, In c cs -> cs <> []) by (intros c Hc ->; destruct Hc).
      assert (RT : forall r, In r (seg ++ scen)%list -> reported_tree (map (fun c => column c) cs) r).
      { intros r Hr. apply TT in Hr as (c&t&Hc&Ht&->). destruct (SM c t Hc Ht) as (dm&x&o&o1&o2&o3&EM&EA&N1&N2&ET).
        rewrite EA. cbn [tdom_arcs map taOrder taFrom taTo]. change typedDomainArcRole with "http://ecksbee.com/arc-role/typed-domain". rewrite ET.
        assert (Hm : In (RelevantMember (Labelled (tmDimHref t) (lbl (tmDimHref t))) None x (Some (Labelled dm (lbl dm))) false) (rcMembers (column c))).
        { apply member_In. right. exists t, dm, x. rewrite EM. simpl. auto. }
        assert (Hc' : In (column c) (map (fun c => column c) cs)) by (apply in_map_iff; eauto).
        split; [split; [reflexivity|discriminate]|]. intros d [<-|[]]. cbn [ra_locator ra_children]. split; auto. split; [do 2 eexists; split; [exact Hc'|]; split; [exact Hm|reflexivity]|].
        intros n [<-|[]] k Hk. apply node_of_inv in Hk as [->|(y&[]&_)]. cbn [ra_locator]. split; auto.
        do 3 eexists. split; [exact Hc'|]. split; [exact Hm|]. split; [exact N1|]. split; reflexivity. }
      assert (GV : cs <> [] -> get_void_quadrant mo (map (fun c => column c) cs) (isort locator_less seg) (isort locator_less scen) = Ok void).
      { intro N. unfold get_member_grid in E. destruct cs as [|c0 cs']; [congruence|]. cbn [map] in E |- *.
        destruct (get_void_quadrant _ _ _ _) as [v0|?|]; cbn [bind] in E; try discriminate. injection E as _ <-. reflexivity. }
      assert (R1 : Forall (reported_tree (map (fun c => column c) cs)) (isort locator_less seg)).
      { apply Forall_forall. intros r Hr. rewrite isort_in in Hr. apply RT, in_or_app. auto. }
      assert (R2 : Forall (reported_tree (map (fun c => column c) cs)) (isort locator_less scen)).
      { apply Forall_forall. intros r Hr. rewrite isort_in in Hr. apply RT, in_or_app. auto. }
      split.
      + intros c e Hc He Ne. unfold explicit_of in He.
        assert (X : exists s, In (explicit_as s e) (rcMembers (column c))).
        { apply in_app_iff in He as [He|He]; [exists true|exists false]; rewrite members_eq, !in_app_iff, !in_map_iff; eauto 6. }
        destruct X as [s Hm]. specialize (GV (NE c Hc)).
        destruct (void_spec mo (fun _ => True) (map (fun c => column c) cs) _ _ R1 R2) as (rows&G'&_); [auto|].
        rewrite GV in G'. injection G' as G'.
        destruct (explicit_rows_ex mo MO (dimension_members (map (fun c => column c) cs)) (explicit_as s e) (Labelled (emMemHref e) (lbl (emMemHref e)))) as (x&Hx&Ex&Tx).
        * apply (GridProofs.member_In _ (column c)); auto. apply in_map_iff. exists c. auto.
        * reflexivity.
        * apply in_map_iff. exists x. split; [unfold row; rewrite Ex, Tx; reflexivity|]. rewrite G'. apply in_or_app. auto.
      + intros dim OD c dm x Hc (t&Ht&Ed&Hx). specialize (GV (NE c Hc)).
        destruct (SM c t Hc Ht) as (dm'&x'&o&o1&o2&o3&EM&EA&N1&N2&ET). rewrite EM in Hx. destruct Hx as [[= -> ->]|[]].
        assert (Hr : In (RArc "" o1 [RArc dim o2 [RArc dm o3 []]]) (seg ++ scen)%list).
        { apply TT. exists c, t. split; auto. split; auto. rewrite EA, <- Ed, <- ET. reflexivity. }
        destruct (void_has mo (fun l => lbHref l = dim) (map (fun c => column c) cs) _ _ R1 R2) with (dim := dim) (dm := dm) (o1 := o1) (o2 := o2) (o3 := o3) as (void'&y&G'&Hy&Dy&t'&Ty&Ey).
        * intros r d y Hr' Hd Ey. apply dims_sound in Ey as [-> _]. rewrite in_app_iff, !isort_in, <- in_app_iff in Hr'. apply TT in Hr' as (c2&t2&Hc2&Ht2&->).
          destruct (SM c2 t2 Hc2 Ht2) as (dm2&x2&p&p1&p2&p3&_&EA2&_&_&ET2). rewrite EA2 in Hd. cbn [tdom_arcs map taOrder taFrom taTo] in Hd.
          change typedDomainArcRole with "http://ecksbee.com/arc-role/typed-domain" in Hd. rewrite ET2 in Hd. destruct Hd as [<-|[]]. cbn. eauto.
        * rewrite in_app_iff, !isort_in, <- in_app_iff. exact Hr.
        * rewrite GV in G'. injection G' as <-. apply in_map_iff. exists y. split; auto. unfold row. rewrite Dy, Ty. cbn. now rewrite Ey.
  Qed.
End Column.

(** ** Footnotes *)
Lemma Forall2_at {A B} (R : A -> B -> Prop) l : forall m, length l = length m ->
  (forall n a b, nth_error l n = Some a -> nth_error m n = Some b -> R a b) -> Forall2 R l m.
Proof.
  induction l as [|a l IH]; intros [|b m] E H; try discriminate; constructor.
  - exact (H 0 a b eq_refl eq_refl).
  - apply IH; [now injection E|]. intros n. exact (H (S n)).
Qed.
Lemma NoDup_map_inj {A B} (f : A -> B) l x y : NoDup (map f l) -> In x l -> In y l -> f x = f y -> x = y.
Proof.
  induction l as [|a l IH]; cbn; intros N; [intros []|]. inversion N as [|? ? N1 N2]; subst.
  intros [->|Hx] [->|Hy] E; auto; exfalso; apply N1; [rewrite E|rewrite <- E]; now apply in_map.
Qed.
Lemma label_id s : s <> "" -> free_of "#" s -> located_id ("#" ++ s) = s.
Proof.
  intros N F. unfold located_id. rewrite (proj2 (after_last_hash_Some ("#" ++ s) s)); [|exists ""; auto]. destruct s; [congruence|reflexivity].
Qed.
Section Notes.
  Variable tree : list arc -> string -> rarc.
  Variable i : instance.
  Hypothesis FT : faithful_tree tree.
  Notation links := (iFootnoteLinks i).
  Hypothesis T : tidy links (iFacts i).
  Hypothesis W : wf_arcs [i].

  Lemma all_notes_eq : flat_map fkFootnotes (flat_map iFootnoteLinks [i]) = flat_map fkFootnotes links.
  Proof. cbn [flat_map]. now rewrite app_nil_r. Qed.
  Lemma same_note f g : In f (flat_map fkFootnotes links) -> In g (flat_map fkFootnotes links) -> fnID f = fnID g -> f = g.
  Proof. apply NoDup_map_inj, (td_once _ _ T). Qed.
  Lemma note_label l f id : In l links -> In f (fkFootnotes l) -> (label_refers i (fnLabel f) id <-> id = fnID f).
  Proof.
    intros Hl Hf. destruct (td_ids _ _ T l f Hl Hf) as (E&N&F). rewrite <- label_refers_iff.
    unfold map_fnote_locator_to_href. rewrite find_nothing.
    - rewrite <- E, (label_id _ N F). split; congruence.
    - intros x Hx. apply in_flat_map in Hx as (l'&Hl'&Hx). destruct (String.eqb_spec (locLabel x) (fnLabel f)) as [X|_]; [|reflexivity].
      exfalso. exact (td_labels _ _ T l' l x f Hl' Hl Hx Hf X).
  Qed.
  Lemma not_target l a b : In l links -> In a (fkArcs l) -> In b (fkArcs l) -> faTo b <> faFrom a.
  Proof.
    intros Hl Ha Hb E. destruct (td_arcs _ _ T l a Hl Ha) as ((x&Hx&Ex)&_). destruct (td_arcs _ _ T l b Hl Hb) as (_&(f&Hf&Ef)).
    apply (td_labels _ _ T l l x f Hl Hl Hx Hf). congruence.
  Qed.
  Lemma notes_iff fa f : In fa (iFacts i) -> (In f (get_footnotes tree [i] [i] (Some fa)) <-> annotates links fa f).
  Proof.
    intro Hfa. split.
    - intro H. apply (get_footnotes_sound _ FT) in H as (i'&l&[<-|[]]&Hl&(a&id&Ha&_&R1&R2&FS)); auto.
      destruct (td_arcs _ _ T l a Hl Ha) as (_&(f0&Hf0&E0)). rewrite <- E0 in R2. apply (note_label l f0 id Hl Hf0) in R2. subst id.
      rewrite all_notes_eq in FS. apply first_such_In in FS as [Hf E].
      assert (f = f0) as -> by (apply same_note; auto; apply in_flat_map; eauto).
      exists (holding links), l, a. repeat split; auto. now left.
    - intros (i'&l&a&[<-|[]]&Hl&Ha&R&Hf&E). cbn [iFootnoteLinks holding] in Hl. change (label_refers i (faFrom a) (fID fa)) in R.
      eapply (get_footnotes_complete _ FT _ _ _ i l (faFrom a)); auto.
      + intros i' l' [<-|[]] Hl'. destruct (fkArcs l') as [|a' as'] eqn:EA; [elim (td_some _ _ T l' Hl' EA)|]. exists a'. split; [now left|].
        intros b Hb. rewrite <- EA in Hb. eapply not_target; eauto. rewrite EA. now left.
      + intros i' l' s' ([<-|[]]&Hl'&R'&(a'&Ha'&<-)&_). split; auto.
        destruct (td_source _ _ T fa l l' a a' Hfa Hl Hl' Ha Ha' R R') as [-> ->]. auto.
      + now left.
      + exists a, (fnID f). split; auto. split; [intros b Hb; eapply not_target; eauto|]. split; auto.
        split; [rewrite <- E; apply (note_label l f); auto|]. rewrite all_notes_eq.
        assert (HF : In f (flat_map fkFootnotes links)) by (apply in_flat_map; eauto).
        destruct (in_split _ _ HF) as (l1&l2&EL). exists l1, l2. split; auto. split; auto.
        intros y Hy Ey. assert (y = f) as -> by (apply same_note; auto; rewrite EL; apply in_or_app; auto).
        pose proof (td_once _ _ T) as ND. rewrite EL, map_app in ND. cbn [map] in ND. apply NoDup_remove_2 in ND. apply ND, in_or_app. left. now apply in_map.
  Qed.
  Variable w : outside.
  Variable h : hydratable.
  Variable file : string.
  Hypothesis one : hInstances h = [(file, i)].
  Variable g : grid_env.
  Hypothesis GF : grid_from w h g.
  Variable lbl : string -> label_pack.
  Variable order : context -> typed_member -> list (string * string).
  Notation column c := (fst (mk_col tree lbl order c)).

  Lemma noted_iff a b href c f : In f (notes_at tree (ge_cell g) a b href (rcContextRef (column c))) <-> noted links (iFacts i) href c f.
  Proof.
    unfold notes_at, fact_at. rewrite (visited_one h file i one _ (gf_notes1 _ _ _ GF a b)), (visited_one h file i one _ (gf_notes2 _ _ _ GF a b)),
      (visited_one h file i one _ (gf_facts _ _ _ GF a b)). change (rcContextRef (column c)) with (ctxID c).
    assert (EQ : forall y, (String.eqb (fHref y) href && String.eqb (fContextRef y) (ctxID c))%bool = true <-> is_fact_of href (ctxID c) y).
    { intro y. unfold is_fact_of. rewrite andb_true_iff, !String.eqb_eq. reflexivity. }
    unfold find_fact. cbn [flat_map]. rewrite app_nil_r. destruct (find _ _) as [fa|] eqn:F.
    - pose proof (proj1 (find_some _ _ F)) as Hfa. apply (find_first_such _ _ _ _ EQ) in F. rewrite (notes_iff fa f Hfa). split.
      + intro A. exists fa. auto.
      + intros (fa'&F'&A). assert (fa' = fa) as -> by (eapply first_such_unique; eauto). exact A.
    - split; [intros []|]. intros (fa&F'&_). apply first_such_In in F' as [Hfa P]. exfalso. exact (proj1 (find_none_iff _ _ _ EQ) F fa Hfa P).
  Qed.
  Lemma noted_note href c f : noted links (iFacts i) href c f -> In f (flat_map fkFootnotes links).
  Proof. intros (fa&_&(i'&l&a&[<-|[]]&Hl&_&_&Hf&_)). apply in_flat_map. eauto. Qed.

  Lemma notes_json hrefs cs langs facts fg notes fields v :
    get_factual_quadrant tree (ge_cell g) (ge_id_order g) (ge_id_order_final g) hrefs (map (fun c => column c) cs) langs = Ok (facts, fg, notes) ->
    object fields v -> NoDup (map fst fields) -> incl (facts_fields facts fg notes) fields ->
    notes_shown links (iFacts i) v hrefs cs.
  Proof.
    intros E O ND I.
    assert (M1 : the_member v "FootnoteGrid" (match fg with [] => null | _ => list_of (list_of (list_of count)) fg end)).
    { eapply the_member_of; [exact O|exact ND|apply I; right; now left]. }
    assert (M2 : the_member v "Footnotes" (match fg with [] => null | _ => list_of shows notes end)).
    { eapply the_member_of; [exact O|exact ND|apply I; right; right; now left]. }
    assert (DEC : (hrefs = [] \/ cs = []) \/ (hrefs <> [] /\ cs <> [])).
    { destruct hrefs, cs; auto. right. split; discriminate. }
    destruct DEC as [DEC|[NH NC]]; [left|right].
    { assert (fg = []) as ->.
      { destruct DEC as [-> | ->]; cbn in E; [injection E as _ <- _; reflexivity|]. unfold get_factual_quadrant in E. destruct hrefs; injection E as _ <- _; reflexivity. }
      auto. }
    split; auto. split; auto.
    set (cols := map (fun c => column c) cs) in *.
    assert (NC' : cols <> []) by (unfold cols; destruct cs; [congruence|discriminate]).
    destruct (id_map_spec tree (ge_cell g) hrefs cols) as (IM&IS&IC).
    destruct (quadrant_inv _ _ _ _ _ _ _ _ _ _ NH NC' E) as (_&_&EN).
    destruct (quadrant_shape _ _ _ _ _ _ _ _ _ _ NH NC' E) as [_ [SG1 SG2]].
    set (idmap := id_map tree (ge_cell g) hrefs cols) in *.
    assert (SH : forall f, (exists a b, shown_at tree (ge_cell g) hrefs cols a b f) <-> exists href c, In href hrefs /\ In c cs /\ noted links (iFacts i) href c f).
    { intro f. split.
      - intros (a&b&href&r&Hh&Hr&Hf). unfold cols in Hr. rewrite nth_error_map in Hr. destruct (nth_error cs b) as [c|] eqn:Hc; [|discriminate]. injection Hr as <-.
        exists href, c. split; [eapply nth_error_In; eauto|]. split; [eapply nth_error_In; eauto|]. eapply noted_iff; exact Hf.
      - intros (href&c&Hh&Hc&N). apply In_nth_error in Hh as [a Ha], Hc as [b Hb]. exists a, b, href, (column c). split; auto.
        split; [unfold cols; rewrite nth_error_map, Hb; reflexivity|]. now apply (noted_iff a b). }
    assert (IN : forall f, In (fnID f, f) idmap <-> exists href c, In href hrefs /\ In c cs /\ noted links (iFacts i) href c f).
    { intro f. rewrite <- SH. split; [intro H; destruct (IS _ _ H) as [_ X]; exact X|]. intros (a&b&S).
      pose proof (IC a b f S) as H. apply in_map_iff in H as ([k f']&Ek&H). cbn in Ek. subst k.
      destruct (IS _ _ H) as [Ek X]. apply SH in X as (x&c&_&_&X). destruct (proj1 (SH f)) as (x'&c'&_&_&Y); [eauto|].
      rewrite (same_note f f'); [rewrite <- Ek; exact H|eapply noted_note; eauto|eapply noted_note; eauto|exact Ek]. }
    assert (KEY : forall k f, In (k, f) idmap -> k = fnID f) by (intros k f H; apply IS in H; tauto).
    assert (NDI : forall o, Permutation o idmap -> NoDup (map snd o)).
    { intros o P. apply (NoDup_map_inv fnID). rewrite map_map.
      assert (EK : map (fun x => fnID (snd x)) o = map fst o).
      { apply map_ext_in. intros [k f] Hk. cbn. symmetry. apply KEY. eapply Permutation_in; eauto. }
      rewrite EK. eapply Permutation_NoDup; [apply Permutation_map, Permutation_sym; exact P|exact IM]. }
    exists (map snd (ge_id_order_final g idmap)). split; [apply NDI, (gf_ids_final _ _ _ GF)|]. split.
    { intro f. rewrite <- IN, in_map_iff. split.
      - intros ([k f']&Ef&H). cbn in Ef. subst f'. eapply Permutation_in in H; [|apply (gf_ids_final _ _ _ GF)]. rewrite <- (KEY _ _ H). exact H.
      - intro H. exists (fnID f, f). split; auto. eapply Permutation_in; [apply Permutation_sym, (gf_ids_final _ _ _ GF)|exact H]. }
    assert (NF : fg <> []) by (intros ->; destruct hrefs; [congruence|discriminate SG1]).
    split.
    { eapply the_member_impl; [|exact M2]. destruct fg as [|r0 rs]; [congruence|]. intros x X. rewrite EN in X.
      eapply list_of_map; [|rewrite map_map; exact X]. intros f u _ U. exact U. }
    eapply the_member_impl; [|exact M1]. intros x X.
    assert (X' : list_of (list_of (list_of count)) fg x) by (destruct fg; [congruence|exact X]). clear X. destruct X' as (us&->&F).
    exists us. split; auto. pose proof (Forall2_len _ _ _ F) as L. apply Forall2_at; [congruence|].
    intros a href u Ha Hu. destruct (nth_error fg a) as [r|] eqn:Hr; [|exfalso; apply nth_error_None in Hr; assert (a < length us) by (apply nth_error_Some; congruence); lia].
    destruct (Forall2_nth _ _ _ _ _ F Hr) as (u'&Hu'&(ys&->&FY)). rewrite Hu in Hu'. injection Hu' as ->.
    exists ys. split; auto. pose proof (Forall2_len _ _ _ FY) as LY.
    assert (LR : length r = length cs) by (rewrite (SG2 r); [apply map_length|eapply nth_error_In; eauto]).
    apply Forall2_at; [congruence|]. intros b c y Hc Hy.
    assert (Hc' : nth_error cols b = Some (column c)) by (unfold cols; now rewrite nth_error_map, Hc).
    destruct (quadrant_cell _ _ _ _ _ _ _ _ _ _ _ _ _ _ E Ha Hc') as (_&(r'&Hr'&Hn)). rewrite Hr in Hr'. injection Hr' as <-.
    destruct (Forall2_nth _ _ _ _ _ FY Hn) as (y'&Hy'&Y). rewrite Hy in Hy'. injection Hy' as <-.
    fold idmap in Y, Hn. set (ord := ge_id_order g a b idmap) in *. set (nt := notes_at tree (ge_cell g) a b href (rcContextRef (column c))) in *.
    assert (PO : Permutation ord idmap) by apply (gf_ids _ _ _ GF).
    exists (cell_numbers ord nt), (map snd (filter (fun kn => existsb (fun f => String.eqb (fnID f) (fst kn)) nt) ord)).
    split; [exact Y|]. split; [|split; [|split; [|split]]].
    - unfold cell_numbers. clear. generalize 1. induction ord as [|kn o IH]; intro n; cbn [length seq combine filter map]; [constructor|].
      specialize (IH (S n)). destruct (existsb _ _); [|exact IH]. cbn [map fst]. constructor; [|exact IH].
      intro H. apply in_map_iff in H as ([k x]&<-&H). apply filter_In in H as [H _]. apply in_combine_l in H. apply in_seq in H. cbn in H. lia.
    - intros k Hk. apply cell_numbers_In in Hk as (Lk&id&f0&f1&Hk&_). split; auto.
      assert (k - 1 < length ord) by (apply nth_error_Some; congruence).
      rewrite map_length, (Permutation_length (gf_ids_final _ _ _ GF idmap)), <- (Permutation_length PO). lia.
    - unfold cell_numbers. rewrite !map_length. clear. generalize 1. induction ord as [|kn o IH]; intro n; cbn [length seq combine filter]; [reflexivity|].
      cbn [snd]. destruct (existsb _ _); cbn [length]; rewrite (IH (S n)); reflexivity.
    - pose proof (NDI ord PO) as N. clear -N. induction ord as [|kn o IH]; cbn [filter map] in *; [constructor|]. inversion N as [|? ? N1 N2]; subst.
      destruct (existsb _ _); [|auto]. cbn [map]. constructor; auto. intro H. apply N1. apply in_map_iff in H as (x&<-&H). apply filter_In in H as [H _]. now apply in_map.
    - intro f. rewrite in_map_iff. split.
      + intros ([k f']&Ef&H). cbn in Ef. subst f'. apply filter_In in H as [H1 H2]. apply existsb_exists in H2 as (f2&Hf2&Ef2). apply String.eqb_eq in Ef2. cbn in Ef2.
        eapply Permutation_in in H1; [|exact PO]. pose proof (KEY _ _ H1) as ->. apply noted_iff in Hf2.
        apply IN in H1 as (x&c'&_&_&N). rewrite (same_note f f2); auto; eapply noted_note; eauto.
      + intro N. exists (fnID f, f). split; auto. apply filter_In. split.
        * eapply Permutation_in; [apply Permutation_sym; exact PO|]. apply IN. exists href, c. split; [eapply nth_error_In; eauto|]. split; [eapply nth_error_In; eauto|exact N].
        * apply existsb_exists. exists f. split; [now apply (noted_iff a b)|]. apply String.eqb_refl.
  Qed.
End Notes.
