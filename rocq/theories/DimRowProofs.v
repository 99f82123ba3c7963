(** * DimRowProofs: lemmas for DimRowProps *)
From Coq Require Import String List Bool Arith Lia Permutation Sorting.Sorted.
From Verif Require Import GoBase GoSpec GoFacts AttrModel SchemaModel SchemaProofs LinkbaseModel LinkbaseSpec InstanceModel InstanceSpec InstanceProofs LabelModel LabelSpec LabelProofs
  FactModel FactSpec GridModel GridSpec GridProofs GridProps ResponseSpec ResponseProofs
  HydrateModel DiscoverModel LoadModel ReportModel ReportSpec ReportProofs EndToEndProps ColumnSpec ColumnProofs DimRowSpec.
Import ListNotations.
Local Open Scope string_scope.

(** ** Rows appended by makeIndents are indented; otherwise it starts again from nothing *)
Section Deeper.
  Variable dims typed : list (string * labelled).
  Variable E : list void_cell.
  Definition deeper (x : void_cell) : Prop := 0 < vcIndentation x.
  Definition kept (l : list void_cell) : Prop := exists pre more, l = (pre ++ more)%list /\ (pre = E \/ pre = []) /\ Forall deeper more.
  Definition stays (f : vq_state -> res vq_state) : Prop := forall st st', kept (snd st) -> f st = Ok st' -> kept (snd st').
  Lemma kept_nil : kept [].
  Proof. exists [], []. auto. Qed.
  Lemma kept_add l x : kept l -> deeper x -> kept (l ++ [x])%list.
  Proof. intros (p&m&->&P&F) D. exists p, (m ++ [x])%list. rewrite app_assoc. split; auto. split; auto. apply Forall_app. auto. Qed.
  Lemma run_stays l : (forall f, In f l -> stays f) -> stays (run l).
  Proof.
    induction l as [|f l IH]; intros H st st' G; cbn [run]; [intros [= <-]; exact G|].
    destruct (f st) as [b|e|] eqn:X; cbn [bind]; try discriminate. apply IH.
    - intros f' Hf'. apply H. now right.
    - apply (H f (or_introl eq_refl) _ _ G X).
  Qed.
  Lemma indents_stay paren r : forall level, stays (make_indents dims typed r paren level).
  Proof.
    induction r as [l o cs IH] using rarc_rect'. intros level st st' G. rewrite make_indents_eq.
    assert (K : stays (run (map (fun c => make_indents dims typed c paren (S level)) (isort by_order cs)))).
    { apply run_stays. intros f Hf. apply in_map_iff in Hf as (c&<-&Hc). apply isort_in in Hc. rewrite Forall_forall in IH. now apply IH. }
    destruct (match fst st with None => _ | Some _ => _ end) as [[dim ret]|] eqn:X.
    2:{ intros [= <-]. apply kept_nil. }
    assert (G' : kept ret).
    { destruct (fst st) as [x|] eqn:F; [|destruct (nonempty l)].
      - assert (st = (dim, ret)) as -> by congruence. exact G.
      - destruct (sget l dims) as [x|] eqn:S; [|discriminate]. injection X as <- <-. exact G.
      - assert (st = (dim, ret)) as -> by congruence. exact G. }
    clear X G st.
    assert (K1 : forall ret1, kept ret1 ->
      (if Nat.ltb 1 level && nonempty l then
         match sget l typed with
         | None => Ok (dim, [])
         | Some t => match dim with None => Panic
                     | Some d => run (map (fun c => make_indents dims typed c paren (S level)) (isort by_order cs)) (dim, ret1 ++ [VoidCell paren level d (Some t)])%list end
         end
       else run (map (fun c => make_indents dims typed c paren (S level)) (isort by_order cs)) (dim, ret1)) = Ok st' -> kept (snd st')).
    { intros ret1 F. destruct (Nat.ltb 1 level) eqn:LV; cbn [andb]; [destruct (nonempty l)|].
      - destruct (sget l typed) as [t|] eqn:S.
        + destruct dim as [d|]; [|discriminate]. apply K. apply kept_add; auto. apply Nat.ltb_lt in LV. unfold deeper. cbn. lia.
        + intros [= <-]. apply kept_nil.
      - apply K. exact F.
      - apply K. exact F. }
    destruct (Nat.eqb_spec level 1) as [->|NL].
    - destruct dim as [d|]; cbn [bind]; [|discriminate]. apply K1. apply kept_add; auto. unfold deeper. cbn. lia.
    - cbn [bind]. apply K1. exact G'.
  Qed.
End Deeper.

(** ** The rows at the margin *)
Section Margin.
  Variable mo : list (string * relevant_member) -> list (string * relevant_member).
  Hypothesis MO : forall l, Permutation (mo l) l.
  Variable ms : list relevant_member.
  Notation row s h := (explicit_row mo (explicit_dimension_map s ms) h).
  Definition dim_href (x : void_cell) : string := lbHref (vcDimension x).
  Lemma row_of s h : map dim_href (row s h) = [] \/
    (map dim_href (row s h) = [h] /\ exists m e, In m ms /\ rmExplicit m = Some e /\ rmIsSegment m = s /\ lbHref (rmDimension m) = h).
  Proof.
    destruct (explicit_map_spec s ms) as [H1 _]. unfold explicit_row.
    destruct (sget h (explicit_dimension_map s ms)) as [x|] eqn:E; [|now left].
    destruct (H1 _ _ E) as [_ H2]. assert (P := MO x). destruct (mo x) as [|[k m] t]; [now left|]. right.
    assert (Hk : In (k, m) x) by (eapply Permutation_in; [exact P|now left]). destruct (H2 _ _ Hk) as (A&B&C&(e&F)).
    unfold dim_href. cbn. rewrite A. split; auto. exists m, e. auto.
  Qed.
  Lemma keys_once : NoDup (isort String.ltb (map fst (all_dimension_map ms))).
  Proof. eapply Permutation_NoDup; [apply isort_perm|]. unfold all_dimension_map. apply (fold_sset_NoDup (fun x => lbHref (rmDimension x)) rmDimension). constructor. Qed.
  Definition has_row s h : Prop := exists m e, In m ms /\ rmExplicit m = Some e /\ rmIsSegment m = s /\ lbHref (rmDimension m) = h.
  Lemma row_dim s h d : In d (map dim_href (row s h)) -> d = h /\ has_row s h.
  Proof.
    intro H. destruct (row_of s h) as [E|[E X]]; rewrite E in H; [destruct H|]. destruct H as [<-|[]]. split; auto.
  Qed.
  Lemma margin_dims : map dim_href (explicit_rows mo ms) =
    flat_map (fun h => (map dim_href (row true h) ++ map dim_href (row false h))%list) (isort String.ltb (map fst (all_dimension_map ms))).
  Proof.
    unfold explicit_rows. induction (isort _ _) as [|h l IH]; cbn [flat_map map]; auto. now rewrite !map_app, IH.
  Qed.
  Lemma margin_In dim : In dim (map dim_href (explicit_rows mo ms)) -> has_row true dim \/ has_row false dim.
  Proof.
    rewrite margin_dims, in_flat_map. intros (h&_&H). apply in_app_iff in H as [H|H].
    - left. now apply row_dim in H as [-> H].
    - right. now apply row_dim in H as [-> H].
  Qed.
  Lemma margin_sorted : StronglySorted (fun a b => String.ltb b a = false) (map dim_href (explicit_rows mo ms)).
  Proof.
    rewrite margin_dims.
    assert (S : StronglySorted (fun a b => String.ltb b a = false) (isort String.ltb (map fst (all_dimension_map ms)))).
    { apply (isort_sorted String.ltb (fun _ => True) swo_string). apply Forall_forall. auto. }
    assert (IR : forall a, String.ltb a a = false) by (intro a; destruct (String.ltb a a) eqn:L; auto; destruct swo_string as [A _]; specialize (A a a I I L); congruence).
    induction S as [|h l S IH F]; cbn [flat_map]; [constructor|].
    set (r := flat_map _ l) in *.
    assert (F' : Forall (fun b => String.ltb b h = false) r).
    { apply Forall_forall. intros b Hb. unfold r in Hb. apply in_flat_map in Hb as (k&Hk&Hb). rewrite Forall_forall in F.
      assert (b = k) as ->; [|auto]. apply in_app_iff in Hb as [Hb|Hb]; now apply row_dim in Hb as [-> _]. }
    destruct (row_of true h) as [E|[E _]], (row_of false h) as [E'|[E' _]]; rewrite E, E'; cbn [app]; auto; repeat (constructor; auto).
  Qed.
  Lemma margin_count dim : count_occ string_dec (map dim_href (explicit_rows mo ms)) dim <= 2 /\
    (~ (has_row true dim /\ has_row false dim) -> count_occ string_dec (map dim_href (explicit_rows mo ms)) dim <= 1).
  Proof.
    rewrite margin_dims. pose proof keys_once as ND. induction ND as [|h l NI ND IH]; cbn [flat_map]; [cbn; lia|].
    rewrite !count_occ_app. set (r := flat_map _ l) in *. destruct (string_dec h dim) as [->|NE].
    - assert (Z : count_occ string_dec r dim = 0).
      { apply count_occ_not_In. intro H. apply NI. unfold r in H. apply in_flat_map in H as (k&Hk&H).
        assert (dim = k) as ->; auto. apply in_app_iff in H as [H|H]; now apply row_dim in H as [-> _]. }
      rewrite Z. destruct (row_of true dim) as [E|[E X]], (row_of false dim) as [E'|[E' X']]; rewrite E, E'; cbn [count_occ];
        destruct (string_dec dim dim); try congruence; split; try lia. intro N. exfalso. apply N. split; assumption.
    - assert (Z : forall s, count_occ string_dec (map dim_href (row s h)) dim = 0).
      { intro s. destruct (row_of s h) as [E|[E _]]; rewrite E; cbn [count_occ]; auto. destruct (string_dec h dim); congruence. }
      rewrite !Z. exact IH.
  Qed.
End Margin.

Section Column.
  Variable tree : list arc -> string -> rarc.
  Variable lbl : string -> label_pack.
  Variable order : context -> typed_member -> list (string * string).
  Hypothesis permuted : forall c t, Permutation (order c t) (tmMap t).
  Notation column c := (fst (mk_col tree lbl order c)).

  Definition has_part (s : bool) := if s then in_segment else in_scenario.
  Lemma has_row_iff cs s dim : has_row (dimension_members (map (fun c => column c) cs)) s dim <-> has_part s cs dim.
  Proof.
    split.
    - intros (m&e&Hm&Em&Es&Ed). apply In_member in Hm as (c'&Hc&Hm&N). apply in_map_iff in Hc as (c&<-&Hc).
      apply (member_In tree lbl order permuted) in Hm as [(s'&e'&_&->&He)|(t&d&x&_&_&->)]; [|discriminate Em]. cbn in Es, Ed, N. subst s' dim.
      destruct s; (split; [exact N|exists c, e'; auto]).
    - intro H. assert (X : dim <> "" /\ exists c e, In c cs /\ In e (dcExplicit (if s then ctxSegment c else ctxScenario c)) /\ emDimHref e = dim) by (destruct s; exact H).
      destruct X as (N&c&e&Hc&He&Ed). exists (explicit_as lbl s e), (Labelled (emMemHref e) (lbl (emMemHref e))). split; [|split; [reflexivity|split; [reflexivity|exact Ed]]].
      apply (GridProofs.member_In _ (column c)); [apply in_map_iff; eauto| |cbn; congruence].
      apply (member_In tree lbl order permuted). left. exists s, e. split; [|auto]. unfold explicit_of. apply in_app_iff. destruct s; auto.
  Qed.
  Lemma either cs dim : (has_row (dimension_members (map (fun c => column c) cs)) true dim \/ has_row (dimension_members (map (fun c => column c) cs)) false dim) <->
    in_segment cs dim \/ in_scenario cs dim.
  Proof. now rewrite !has_row_iff. Qed.

  Lemma void_kept mo cs seg scen void : get_void_quadrant mo cs seg scen = Ok void ->
    kept (explicit_rows mo (dimension_members cs)) void.
  Proof.
    intro V. unfold get_void_quadrant in V. cbv zeta in V. fold (explicit_rows mo (dimension_members cs)) in V.
    destruct (make_indents _ _ (reduce_trees seg) _ _ _) as [st1|?|] eqn:E1; cbn [bind] in V; try discriminate.
    destruct (make_indents _ _ (reduce_trees scen) _ _ _) as [st2|?|] eqn:E2; cbn [bind] in V; try discriminate.
    injection V as <-. eapply indents_stay; [eapply indents_stay; [|exact E1]|exact E2].
    exists (explicit_rows mo (dimension_members cs)), []. cbn [snd]. now rewrite app_nil_r; auto.
  Qed.

  Lemma cell_fields a u : dimension_value a u ->
    the_member u "Dimension" (href_shown (dim_href a)) /\ the_member u "Indentation" (count (vcIndentation a)) /\
    (vcTypedDomain a = None -> absent u "TypedDomain").
  Proof.
    intro U. unfold dimension_value in U.
    assert (NF : NoDup (map fst ([("IsParenthesized", flag (vcParenthesized a)); ("Indentation", count (vcIndentation a)); ("Dimension", concept_with_labels (vcDimension a))]
                                   ++ optional "TypedDomain" concept_with_labels (vcTypedDomain a))%list)).
    { destruct (vcTypedDomain a); cbn; repeat constructor; simpl; intuition congruence. }
    split; [|split].
    - eapply the_member_impl; [intros y; apply labelled_href|]. eapply the_member_of; [exact U|exact NF|right; right; now left].
    - eapply the_member_of; [exact U|exact NF|right; now left].
    - intro N. rewrite N in U. apply (absent_of _ _ _ U). simpl. intuition congruence.
  Qed.

  Lemma order_json mo cs seg scen members void periods fields v :
    (forall m, Permutation (mo m) m) ->
    (forall r, In r (seg ++ scen)%list <-> exists c t, In c cs /\ In t (typed_of c) /\ r = tree (tdom_arcs (tmArcs t)) typedDomainArcRole) ->
    get_member_grid mo (map (fun c => column c) cs) seg scen = Ok (members, void) ->
    object fields v -> NoDup (map fst fields) -> incl (columns_fields periods members void) fields ->
    dimensions_in_order tree v cs.
  Proof.
    intros MO TT E O ND I. set (ms := dimension_members (map (fun c => column c) cs)). set (X := explicit_rows mo ms).
    assert (K : kept X void).
    { unfold get_member_grid in E. destruct cs as [|c0 cs']; [injection E as _ <-; apply kept_nil|]. cbn [map] in E.
      destruct (get_void_quadrant _ _ _ _) as [v0|?|] eqn:V; cbn [bind] in E; try discriminate. injection E as _ <-. apply void_kept in V. exact V. }
    destruct K as (pre&more&EV&P&F).
    assert (XI : forall x, In x X -> vcTypedDomain x = None /\ vcIndentation x = 0).
    { intros x Hx. apply (explicit_rows_In mo MO) in Hx as (A&_&B&_). auto. }
    assert (PI : forall x, In x pre -> vcTypedDomain x = None /\ vcIndentation x = 0) by (destruct P as [-> | ->]; [exact XI|intros ? []]).
    exists (map dim_href pre). split; [|split; [|split; [|split; [|split]]]].
    - eapply the_member_impl; [|eapply the_member_of; [exact O|exact ND|apply I; right; right; now left]].
      intros y (us&->&Fu). rewrite EV in Fu. apply Forall2_app_inv_l in Fu as (u1&u2&F1&F2&->). exists u1, u2. split; [reflexivity|]. split.
      + clear -F1 PI. induction F1 as [|a u l us A F1 IH]; cbn [map]; constructor.
        * destruct (PI a (or_introl eq_refl)) as [N Z]. apply cell_fields in A as (A1&A2&A3). rewrite Z in A2. split; [exact A1|]. split; auto.
        * apply IH. intros x Hx. apply PI. now right.
      + clear -F2 F. induction F2 as [|a u l us A F2 IH]; constructor; inversion F; subst; auto.
        apply cell_fields in A as (_&A2&_). exists (vcIndentation a). auto.
    - destruct P as [-> | ->]; [apply margin_sorted, MO|constructor].
    - intros dim H. destruct P as [-> | ->]; [|destruct H]. apply (margin_In mo MO) in H. now apply either in H.
    - intros SM dim H.
      assert (N : cs <> []) by (intros ->; destruct H as [(_&c&e&[]&_)|(_&c&e&[]&_)]).
      assert (RT : forall r, In r (seg ++ scen)%list -> reported_tree (map (fun c => column c) cs) r).
      { intros r Hr. apply TT in Hr as (c&t&Hc&Ht&->). destruct (SM c t Hc Ht) as (dm&x&o&o1&o2&o3&EM&EA&N1&N2&ET).
        rewrite EA. cbn [tdom_arcs map taOrder taFrom taTo]. change typedDomainArcRole with "http://ecksbee.com/arc-role/typed-domain". rewrite ET.
        assert (Hm : In (RelevantMember (Labelled (tmDimHref t) (lbl (tmDimHref t))) None x (Some (Labelled dm (lbl dm))) false) (rcMembers (column c))).
        { apply (member_In tree lbl order permuted). right. exists t, dm, x. rewrite EM. simpl. auto. }
        assert (Hc' : In (column c) (map (fun c => column c) cs)) by (apply in_map_iff; eauto).
        split; [split; [reflexivity|discriminate]|]. intros d [<-|[]]. cbn [ra_locator ra_children]. split; auto. split; [do 2 eexists; split; [exact Hc'|]; split; [exact Hm|reflexivity]|].
        intros n [<-|[]] k Hk. apply node_of_inv in Hk as [->|(y&[]&_)]. cbn [ra_locator]. split; auto.
        do 3 eexists. split; [exact Hc'|]. split; [exact Hm|]. split; [exact N1|]. split; reflexivity. }
      assert (GV : get_void_quadrant mo (map (fun c => column c) cs) (isort locator_less seg) (isort locator_less scen) = Ok void).
      { unfold get_member_grid in E. destruct cs as [|c0 cs']; [congruence|]. cbn [map] in E |- *.
        destruct (get_void_quadrant _ _ _ _) as [v0|?|]; cbn [bind] in E; try discriminate. injection E as _ <-. reflexivity. }
      destruct (void_spec mo (fun _ => True) (map (fun c => column c) cs) (isort locator_less seg) (isort locator_less scen)) as (rows&G'&_).
      + apply Forall_forall. intros r Hr. rewrite isort_in in Hr. apply RT, in_or_app. auto.
      + apply Forall_forall. intros r Hr. rewrite isort_in in Hr. apply RT, in_or_app. auto.
      + auto.
      + rewrite GV in G'. injection G' as G'. fold ms X in G'. apply either in H.
        assert (HX : exists x, In x X /\ dim_href x = dim).
        { destruct H as [(m&e&Hm&Em&_&<-)|(m&e&Hm&Em&_&<-)]; destruct (explicit_rows_ex mo MO ms m e Hm Em) as (x&Hx&Ex&_); exists x; auto. }
        destruct HX as (x&Hx&Ex). apply in_map_iff. exists x. split; auto.
        assert (Hv : In x (pre ++ more)%list) by (rewrite <- EV, G'; apply in_or_app; auto). apply in_app_iff in Hv as [Hv|Hv]; auto.
        exfalso. rewrite Forall_forall in F. apply F in Hv. unfold deeper in Hv. apply XI in Hx as [_ Z]. lia.
    - intro dim. destruct P as [-> | ->]; [apply (margin_count mo MO)|cbn; lia].
    - intros dim N. destruct P as [-> | ->]; [|cbn; lia]. apply (margin_count mo MO). intros [H H']. apply N.
      apply has_row_iff in H, H'. auto.
  Qed.
End Column.
