(** * CalcProofs *)
From Verif Require Import GoBase GoSpec GoFacts AttrModel SchemaModel SchemaProofs LinkbaseModel InstanceModel
  LabelModel LabelSpec LabelProofs PeriodSpec PeriodProofs FactModel FactSpec FactProps GridModel GridSpec GridProofs CalcModel CalcSpec.
Local Open Scope string_scope.

(** ** Weights *)
Lemma itoa_N_decimal n : decimal (itoa_N n) (Z.of_N n).
Proof.
  replace (itoa_N n) with (itoa (Z.of_N n)); [apply itoa_decimal; lia|]. destruct n; reflexivity.
Qed.
Lemma half_even_spec num den :
  (0 < den)%N ->
  let n := half_even num den in
  (2 * Z.abs (Z.of_N num - Z.of_N n * Z.of_N den) <= Z.of_N den)%Z /\
  ((2 * Z.abs (Z.of_N num - Z.of_N n * Z.of_N den) = Z.of_N den)%Z -> Z.Even (Z.of_N n)).
Proof.
  intros P n. subst n. unfold half_even.
  pose proof (N.div_mod num den ltac:(lia)) as E. pose proof (N.mod_lt num den ltac:(lia)) as L.
  set (q := (num / den)%N) in *. set (r := (num mod den)%N) in *.
  assert (EZ : Z.of_N num = (Z.of_N den * Z.of_N q + Z.of_N r)%Z) by (rewrite <- N2Z.inj_mul, <- N2Z.inj_add; congruence).
  destruct (N.ltb_spec (2 * r) den) as [A|A].
  - rewrite EZ. replace (_ + _ - _)%Z with (Z.of_N r) by lia. split; lia.
  - destruct (N.ltb_spec den (2 * r)) as [B|B].
    + rewrite EZ. replace (_ + _ - _)%Z with (Z.of_N r - Z.of_N den)%Z by lia. split; lia.
    + assert (2 * r = den)%N by lia.
      destruct (N.even q) eqn:V.
      * rewrite EZ. replace (_ + _ - _)%Z with (Z.of_N r) by lia. split; [lia|]. intros _.
        apply N.even_spec in V. destruct V as [k ->]. exists (Z.of_N k). lia.
      * rewrite EZ. replace (_ + _ - _)%Z with (Z.of_N r - Z.of_N den)%Z by lia. split; [lia|]. intros _.
        assert (O : N.odd q = true) by (rewrite <- N.negb_even, V; reflexivity).
        apply N.odd_spec in O. destruct O as [k ->]. exists (Z.of_N k + 1)%Z. lia.
Qed.
Lemma tenths_nearest m e : nearest_tenth (Zpos m) e (Z.of_N (tenths m e)).
Proof.
  unfold nearest_tenth, tenths. destruct e as [|p|p].
  - change (Z.max 0 0) with 0%Z. change (Z.max 0 (- 0)) with 0%Z. rewrite !Z.pow_0_r. cbv zeta.
    rewrite N2Z.inj_mul. change (Z.of_N (N.pos m)) with (Zpos m). change (Z.of_N 10) with 10%Z.
    replace (_ - _)%Z with 0%Z by lia. split; lia.
  - replace (Z.max 0 (Zpos p)) with (Zpos p) by lia. replace (Z.max 0 (- Zpos p)) with 0%Z by lia. cbv zeta.
    rewrite !N2Z.inj_mul, N2Z.inj_pow. change (Z.of_N (N.pos m)) with (Zpos m). change (Z.of_N (N.pos p)) with (Zpos p).
    change (Z.of_N 10) with 10%Z. change (Z.of_N 2) with 2%Z. rewrite Z.pow_0_r.
    replace (_ - _)%Z with 0%Z by ring. split; lia.
  - replace (Z.max 0 (Zneg p)) with 0%Z by lia. replace (Z.max 0 (- Zneg p)) with (Zpos p) by lia. cbv zeta.
    rewrite Z.pow_0_r, Z.mul_1_r.
    assert (P : (0 < 2 ^ N.pos p)%N) by (apply N.neq_0_lt_0, N.pow_nonzero; lia).
    pose proof (half_even_spec (10 * N.pos m) (2 ^ N.pos p) P) as H. cbv zeta in H.
    rewrite N2Z.inj_mul, N2Z.inj_pow in H. change (Z.of_N (N.pos m)) with (Zpos m) in H.
    change (Z.of_N (N.pos p)) with (Zpos p) in H. change (Z.of_N 10) with 10%Z in H. change (Z.of_N 2) with 2%Z in H.
    exact H.
Qed.
Lemma format_scale w : scale_text w (format_1f (SFabs w)).
Proof.
  destruct w as [s|s| |s m e]; cbn [SFabs format_1f scale_text]; auto.
  unfold one_decimal. exists (Z.of_N (tenths m e)), (itoa_N (tenths m e / 10)), (itoa_N (tenths m e mod 10)).
  split; [apply tenths_nearest|]. split; [reflexivity|]. split.
  - change 10%Z with (Z.of_N 10). rewrite <- N2Z.inj_div. apply itoa_N_decimal.
  - change 10%Z with (Z.of_N 10). rewrite <- N2Z.inj_mod. apply itoa_N_decimal.
Qed.
Lemma format_sign w : sign_text w (format_c (if SFltb w (S754_zero false) then "-"%char else "+"%char)).
Proof.
  unfold sign_text, is_negative, format_c.
  destruct w as [s|s| |s m e]; try destruct s; cbn; try (left; split; [eauto|reflexivity]; fail);
    right; (split; [|reflexivity]); intros [H|(? & ? & H)]; discriminate.
Qed.

(** ** The link *)
Lemma has_networkP {A} role (lb : linkbase A) :
  (if existsb (fun rr => String.eqb role (rrRoleURI rr)) (lbRoleRefs lb)
   then find (fun k => String.eqb (lRole k) role) (lbLinks lb) else None) <> None <-> has_network role lb.
Proof.
  unfold has_network. destruct (existsb _ _) eqn:E.
  - apply existsb_exists in E. destruct E as (rr & Hr & E). apply String.eqb_eq in E.
    destruct (find _ _) as [k|] eqn:F.
    + split; [|discriminate]. intros _. apply find_some in F. destruct F as [F1 F2]. apply String.eqb_eq in F2.
      split; [exists rr; auto|exists k; auto].
    + split; [congruence|]. intros [_ (k & Hk & R)].
      eapply find_none in F; [|exact Hk]. apply String.eqb_neq in F. congruence.
  - split; [congruence|]. intros [(rr & Hr & R) _].
    assert (C : existsb (fun rr => String.eqb role (rrRoleURI rr)) (lbRoleRefs lb) = true).
    { apply existsb_exists. exists rr. split; auto. apply String.eqb_eq. auto. }
    congruence.
Qed.
Lemma first_link_shown {A} role (lbs : list (linkbase A)) lb k :
  first_link role lbs = Some (lb, k) -> shown_link role lbs lb k.
Proof.
  induction lbs as [|l rest IH]; cbn [first_link]; [discriminate|].
  pose proof (has_networkP role l) as HN.
  destruct (if existsb _ _ then _ else _) as [k'|] eqn:E.
  - intros [= <- <-]. split.
    + exists [], rest. repeat split; auto; [|apply HN; discriminate..]. now apply HN.
    + destruct (existsb _ _); [|discriminate].
      apply (GridProofs.find_first_such _ (fun k => lRole k = role)) in E; [exact E|].
      intro y. apply String.eqb_eq.
  - intro H. destruct (IH H) as [(l1 & l2 & -> & P & N) F]. split; auto.
    exists (l :: l1), l2. split; [reflexivity|]. split; [exact P|].
    intros y [<-|Hy]; auto. intro C. apply HN in C. congruence.
Qed.
Lemma calc_link_eq role stale lbs :
  (forall k, In k stale -> lRole k <> role) -> calc_link role stale lbs = first_link role lbs.
Proof.
  revert stale. induction lbs as [|lb rest IH]; intros stale H; cbn [calc_link first_link]; auto.
  destruct (existsb _ _).
  - destruct (find _ _) as [k|] eqn:F; auto. apply IH. intros k Hk E.
    eapply find_none in F; [|exact Hk]. apply String.eqb_neq in F. congruence.
  - destruct (find _ stale) as [k|] eqn:F; auto.
    apply find_some in F. destruct F as [F1 F2]. apply String.eqb_eq in F2. exfalso. eapply H; eauto.
Qed.

(** ** The arc map *)
Section ArcMap.
  Variable role : string.
  Variable lb : linkbase carc.
  Definition fromb (source : string) (a : carc) : bool :=
    String.eqb (caArcrole a) CalculationArcrole && String.eqb (map_locator_to_href role lb (caFrom a)) source.
  Lemma frombP source a : fromb source a = true <-> arc_from role lb source a.
  Proof.
    unfold fromb, arc_from, is_summation. rewrite andb_true_iff, !String.eqb_eq. unfold CalculationArcrole. split.
    - intros [-> <-]. split; auto. apply locates_fun.
    - intros [-> H]. split; auto. eapply locates_unique; [apply locates_fun|exact H].
  Qed.
  Lemma those_filter {A} (P : A -> Prop) p l : (forall x, p x = true <-> P x) -> those P l (filter p l).
  Proof.
    intro H. induction l as [|x l IH]; cbn [filter]; [constructor|].
    destruct (p x) eqn:E; constructor; auto; [now apply H|]. intro C. apply H in C. congruence.
  Qed.

  Notation raw arcs := (fold_left (add_arc role lb) arcs []).
  Lemma raw_get arcs source :
    sget source (raw arcs) =
    match filter (fromb source) arcs with [] => None | l => Some (map (c_struct_of role lb) l) end.
  Proof.
    assert (G : forall m, sget source (fold_left (add_arc role lb) arcs m) =
      match filter (fromb source) arcs with
      | [] => sget source m
      | l => Some (match sget source m with Some l0 => l0 | None => [] end ++ map (c_struct_of role lb) l)%list
      end).
    { induction arcs as [|a arcs IH]; intro m; cbn [fold_left filter]; auto. rewrite IH. unfold add_arc, fromb.
      destruct (String.eqb (caArcrole a) CalculationArcrole); cbn [andb]; [|reflexivity].
      destruct (String.eqb_spec (map_locator_to_href role lb (caFrom a)) source) as [E|N].
      - rewrite E, (mget_mset_eq String.eqb seqP). destruct (filter _ arcs); [reflexivity|].
        destruct (sget source m); cbn [app map]; [now rewrite <- app_assoc|reflexivity].
      - rewrite (mget_mset_neq String.eqb seqP) by congruence. reflexivity. }
    rewrite G. now destruct (filter _ _).
  Qed.
  Lemma raw_map arcs : is_map (raw arcs).
  Proof.
    assert (G : forall m, is_map m -> is_map (fold_left (add_arc role lb) arcs m)).
    { induction arcs as [|a arcs IH]; intros m M; cbn [fold_left]; auto. apply IH. unfold add_arc.
      destruct (String.eqb _ _); auto. now apply sset_is_map. }
    apply G. constructor.
  Qed.
  Lemma map_get {V W} (f : V -> W) (m : list (string * V)) k :
    sget k (map (fun kv => (fst kv, f (snd kv))) m) = option_map f (sget k m).
  Proof. induction m as [|[a v] m IH]; cbn; auto. destruct (String.eqb a k); auto. Qed.
  Lemma map_is_map {V W} (f : V -> W) (m : list (string * V)) :
    is_map m -> is_map (map (fun kv => (fst kv, f (snd kv))) m).
  Proof. unfold is_map. now rewrite map_map. Qed.
  Lemma c_map_is_map arcs : is_map (c_map role lb arcs).
  Proof. apply map_is_map, raw_map. Qed.
  Lemma c_map_get arcs source slice :
    sget source (c_map role lb arcs) = Some slice <->
    filter (fromb source) arcs <> [] /\
    slice = map (c_struct_of role lb) (isort by_arc_order (filter (fromb source) arcs)).
  Proof.
    unfold c_map. rewrite map_get, raw_get.
    replace (map (c_struct_of role lb) (isort by_arc_order (filter (fromb source) arcs)))
      with (isort c_less (map (c_struct_of role lb) (filter (fromb source) arcs))) by (rewrite isort_map; reflexivity).
    destruct (filter (fromb source) arcs) as [|a l]; cbn [option_map].
    - split; [discriminate|]. intros [H _]. congruence.
    - split; [intros [= <-]; split; [discriminate|reflexivity]|]. intros [_ ->]. reflexivity.
  Qed.
  Lemma c_map_source (k : link carc) source :
    (exists slice, sget source (c_map role lb (lArcs k)) = Some slice) <-> is_source role lb k source.
  Proof.
    unfold is_source. split.
    - intros [slice H]. apply c_map_get in H. destruct H as [H _].
      destruct (filter (fromb source) (lArcs k)) as [|a l] eqn:E; [congruence|].
      assert (Ha : In a (filter (fromb source) (lArcs k))) by (rewrite E; now left).
      apply filter_In in Ha. destruct Ha as [Ha1 Ha2]. exists a. split; auto. now apply frombP.
    - intros (a & Ha & F). eexists. apply c_map_get. split; [|reflexivity].
      intro C. assert (In a (filter (fromb source) (lArcs k))).
      { apply filter_In. split; auto. now apply frombP. }
      rewrite C in H. contradiction.
  Qed.
End ArcMap.
Lemma swo_carc : swo (fun a => caOrder a <> S754_nan) by_arc_order.
Proof.
  destruct swo_float as [A B]. split.
  - intros x y Hx Hy. apply A; auto.
  - intros x y z Hx Hy Hz. apply B; auto.
Qed.

(** ** One source *)
Section Source.
  Variable tree : list arc -> string -> rarc.
  Variable lbl : string -> label_pack.
  Variable concept_of : string -> option concept.
  Variable genv : string -> grid_env.
  Variable entity : string.
  Variable cmap : list (string * list c_struct).

  (** an item apart from its facts *)
  Definition erase (s : summation_item) : summation_item :=
    SummationItem (siHref s) (siLabel s) (siBalance s) (siPeriods s) (siMembers s) (siVoid s) (siContributing s)
      [] (siFootnoteGrid s) (siFootnotes s).
  Notation cs_of slice := (collect (contributing_of lbl concept_of cmap) slice).
  Notation hrefs_of slice from := (map ccHref (cs_of slice) ++ [from])%list.
  (** [si] is the item of a source, in some languages *)
  Definition item_of (langs : list string) (fs : string * list c_struct) (si : summation_item) : Prop :=
    let '(from, slice) := fs in
    let g := genv from in
    exists k cols seg scen cpacks members void facts fgrid notes,
      concept_of from = Some k /\
      get_relevant_contexts tree lbl concept_of (ge_typed_order g) entity (ge_instances g) (hrefs_of slice from)
        = Ok (cols, seg, scen, cpacks) /\
      get_factual_quadrant tree (ge_cell g) (ge_id_order g) (ge_id_order_final g) (hrefs_of slice from) cols langs
        = Ok (facts, fgrid, notes) /\
      get_member_grid (ge_member_order g) cols seg scen = Ok (members, void) /\
      si = SummationItem from (lbl from) (cBalance k) (get_period_headers cols) members void (cs_of slice) facts fgrid notes.
  (** the packs a source adds *)
  Definition adds (fs : string * list c_struct) (packs : list label_pack) : Prop :=
    let '(from, slice) := fs in
    let g := genv from in
    exists cols seg scen cpacks,
      get_relevant_contexts tree lbl concept_of (ge_typed_order g) entity (ge_instances g) (hrefs_of slice from)
        = Ok (cols, seg, scen, cpacks) /\
      packs = (map ccLabel (cs_of slice) ++ [lbl from] ++ cpacks)%list.
  Notation step := (c_source tree lbl concept_of genv entity cmap).
  Lemma step_inv st fs st' : step st fs = Ok st' ->
    exists added, adds fs added /\ stPacks st' = (stPacks st ++ added)%list /\
      (stRoles st', stLangs st') = ge_destruct (genv (fst fs)) (roles_and_langs (stPacks st')) /\
      ((concept_of (fst fs) = None /\ stItems st' = stItems st) \/
       (exists si, item_of (stLangs st') fs si /\ stItems st' = (stItems st ++ [si])%list)).
  Proof.
    destruct fs as [from slice]. unfold c_source, adds, item_of.
    destruct (get_relevant_contexts _ _ _ _ _ _ _) as [[[[cols seg] scen] cpacks]|?|] eqn:E1; cbn [bind]; try discriminate.
    cbv zeta.
    destruct (ge_destruct _ _) as [roles langs] eqn:E2.
    destruct (get_factual_quadrant _ _ _ _ _ _ _) as [[[facts fgrid] notes]|?|] eqn:E3; cbn [bind]; try discriminate.
    cbn [fst]. destruct (concept_of from) as [k|] eqn:E4.
    - destruct (get_member_grid _ _ _ _) as [[members void]|?|] eqn:E5; cbn [bind]; try discriminate.
      intros [= <-]. cbn [stPacks stRoles stLangs stItems].
      eexists. split; [do 4 eexists; split; reflexivity|]. split; [reflexivity|]. split; [auto|].
      right. eexists. split; [|reflexivity]. do 10 eexists. repeat (split; [eauto; fail|]). reflexivity.
    - intros [= <-]. cbn [stPacks stRoles stLangs stItems].
      eexists. split; [do 4 eexists; split; reflexivity|]. split; [reflexivity|]. split; [auto|]. left. auto.
  Qed.
  Lemma item_concept langs fs si : item_of langs fs si -> concept_of (fst fs) <> None.
  Proof. destruct fs as [from slice]. cbn. intros (k & ? & ? & ? & ? & ? & ? & ? & ? & ? & E & _). congruence. Qed.
  Lemma fold_items l st st' : foldM step l st = Ok st' ->
    exists new, stItems st' = (stItems st ++ new)%list /\
      image_of (fun fs si => exists langs, item_of langs fs si) l new.
  Proof.
    revert st. induction l as [|fs l IH]; intro st; cbn [foldM].
    - intros [= <-]. exists []. rewrite app_nil_r. split; auto. constructor.
    - destruct (step st fs) as [st1|?|] eqn:E; cbn [bind]; try discriminate.
      intro H. destruct (IH _ H) as (new & E1 & I). destruct (step_inv _ _ _ E) as (added & _ & _ & _ & [[C E2]|(si & R & E2)]).
      + exists new. rewrite E1, E2. split; auto. apply image_skip; auto.
        intros y (langs & R). apply item_concept in R. contradiction.
      + exists (si :: new). rewrite E1, E2, <- app_assoc. split; auto. apply image_keep; eauto.
  Qed.
  (** without the facts the item is a function of the source *)
  Lemma item_erase langs langs' fs si si' : item_of langs fs si -> item_of langs' fs si' -> erase si = erase si'.
  Proof.
    destruct fs as [from slice]. cbn.
    intros (k & cols & seg & scen & cp & mb & vd & fa & fg & no & E1 & E2 & E3 & E4 & ->)
           (k' & cols' & seg' & scen' & cp' & mb' & vd' & fa' & fg' & no' & E1' & E2' & E3' & E4' & ->).
    rewrite E1 in E1'. injection E1' as <-. rewrite E2 in E2'. injection E2' as <- <- <- <-.
    rewrite E4 in E4'. injection E4' as <- <-. unfold erase. cbn.
    assert (Q : fg = fg' /\ no = no').
    { destruct cols as [|c0 cs0].
      - unfold get_factual_quadrant in E3, E3'. destruct (hrefs_of slice from); split; congruence.
      - assert (NH : hrefs_of slice from <> []) by (intro C; apply app_eq_nil in C; destruct C; discriminate).
        assert (NC : c0 :: cs0 <> []) by discriminate.
        destruct (quadrant_inv _ _ _ _ _ _ _ _ _ _ NH NC E3) as (_ & -> & ->).
        destruct (quadrant_inv _ _ _ _ _ _ _ _ _ _ NH NC E3') as (_ & -> & ->). auto. }
    destruct Q as [<- <-]. reflexivity.
  Qed.
  Lemma item_same langs fs si si' : item_of langs fs si -> item_of langs fs si' -> si = si'.
  Proof.
    destruct fs as [from slice]. cbn.
    intros (k & cols & seg & scen & cp & mb & vd & fa & fg & no & E1 & E2 & E3 & E4 & ->)
           (k' & cols' & seg' & scen' & cp' & mb' & vd' & fa' & fg' & no' & E1' & E2' & E3' & E4' & ->).
    rewrite E1 in E1'. injection E1' as <-. rewrite E2 in E2'. injection E2' as <- <- <- <-.
    rewrite E4 in E4'. injection E4' as <- <-. rewrite E3 in E3'. injection E3' as <- <- <-. reflexivity.
  Qed.
  Lemma item_href langs fs si : item_of langs fs si -> siHref si = fst fs /\ siLabel si = lbl (fst fs).
  Proof.
    destruct fs as [from slice]. cbn.
    intros (k & cols & seg & scen & cp & mb & vd & fa & fg & no & E1 & E2 & E3 & E4 & ->). auto.
  Qed.

  Lemma render_total e f langs : exists m, render e f langs = Ok m.
  Proof.
    destruct f as [f|]; [|eexists; reflexivity]. destruct (fIsNil f) eqn:N.
    - exists [(PureLabel, core "nil")]. unfold render. now rewrite N.
    - destruct (C75_languages e f langs N) as (m & E & _). eauto.
  Qed.
  Lemma quadrant_total env io iof hrefs cols langs : exists r, get_factual_quadrant tree env io iof hrefs cols langs = Ok r.
  Proof.
    unfold get_factual_quadrant. destruct hrefs as [|h0 t0]; [eauto|]. destruct cols as [|c0 u0]; [eauto|].
    match goal with |- context[mapM ?f ?l] => destruct (mapM_exists f l) as [r ->] end; [|cbn [bind]; eauto].
    intros x _. apply mapM_exists. intros y _. apply render_total.
  Qed.
  Lemma step_any st fs st' : step st fs = Ok st' -> forall st2, exists st2', step st2 fs = Ok st2'.
  Proof.
    destruct fs as [from slice]. unfold c_source. intros H st2.
    destruct (get_relevant_contexts _ _ _ _ _ _ _) as [[[[cols seg] scen] cpacks]|?|]; cbn [bind] in *; try discriminate.
    cbv zeta in *.
    destruct (ge_destruct _ (roles_and_langs (stPacks st ++ _)%list)) as [roles langs]. 
    destruct (ge_destruct _ (roles_and_langs (stPacks st2 ++ _)%list)) as [roles2 langs2].
    destruct (quadrant_total (ge_cell (genv from)) (ge_id_order (genv from)) (ge_id_order_final (genv from))
                (hrefs_of slice from) cols langs2) as [[[facts fgrid] notes] ->]. cbn [bind].
    destruct (get_factual_quadrant _ _ _ _ _ _ _) as [[[? ?] ?]|?|]; cbn [bind] in H; try discriminate.
    destruct (concept_of from); [|eauto].
    destruct (get_member_grid _ _ _ _) as [[? ?]|?|]; cbn [bind] in *; try discriminate. eauto.
  Qed.
  Lemma fold_any l st st' : foldM step l st = Ok st' <-> foldM step l st = Ok st' /\ Forall (fun fs => forall st, exists st', step st fs = Ok st') l.
  Proof.
    split; [|tauto]. intro H. split; auto. revert st H. induction l as [|fs l IH]; intro st; cbn [foldM]; [constructor|].
    destruct (step st fs) as [st1|?|] eqn:E; cbn [bind]; try discriminate. intro H. constructor; [|eauto].
    intro st2. eapply step_any; eauto.
  Qed.
  Lemma fold_all l : Forall (fun fs => forall st, exists st', step st fs = Ok st') l -> forall st, exists st', foldM step l st = Ok st'.
  Proof.
    induction 1 as [|fs l H _ IH]; intro st; cbn [foldM]; [eauto|]. destruct (H st) as [st1 ->]. cbn [bind]. apply IH.
  Qed.

  (** the packs seen by every step are those of sources already visited *)
  Lemma fold_packs (P : label_pack -> Prop) l st st' :
    (forall fs added, In fs l -> adds fs added -> added <> [] /\ Forall P added) ->
    Forall P (stPacks st) ->
    foldM step l st = Ok st' ->
    exists new, stItems st' = (stItems st ++ new)%list /\
      image_of (fun fs si => exists packs, packs <> [] /\ Forall P packs /\
        item_of (snd (ge_destruct (genv (fst fs)) (roles_and_langs packs))) fs si) l new.
  Proof.
    revert st. induction l as [|fs l IH]; intros st HA HP; cbn [foldM].
    - intros [= <-]. exists []. rewrite app_nil_r. split; auto. constructor.
    - destruct (step st fs) as [st1|?|] eqn:E; cbn [bind]; try discriminate. intro H.
      destruct (step_inv _ _ _ E) as (added & A & EP & EL & C).
      destruct (HA _ _ (or_introl eq_refl) A) as [NA FA].
      assert (P1 : Forall P (stPacks st1)) by (rewrite EP; apply Forall_app; auto).
      destruct (IH st1 (fun fs added Hi => HA fs added (or_intror Hi)) P1 H) as (new & E1 & I).
      destruct C as [[C E2]|(si & R & E2)].
      + exists new. rewrite E1, E2. split; auto. apply image_skip; auto.
        intros y (packs & _ & _ & R). apply item_concept in R. contradiction.
      + exists (si :: new). rewrite E1, E2, <- app_assoc. split; auto. apply image_keep; auto.
        exists (stPacks st1). split; [rewrite EP; intro Z; apply app_eq_nil in Z; tauto|]. split; auto.
        now rewrite <- EL.
  Qed.
End Source.

(** ** Order of the items *)
Lemma image_In_l {A B} (R : A -> B -> Prop) l l' y : image_of R l l' -> In y l' -> exists x, In x l /\ R x y.
Proof.
  induction 1 as [|x z l l' H I IH|x l l' H I IH]; cbn [In]; [tauto| |].
  - intros [<-|Hy]; [eauto|]. destruct (IH Hy) as (x' & Hx & Rx). eauto.
  - intro Hy. destruct (IH Hy) as (x' & Hx & Rx). eauto.
Qed.
Lemma image_In_r {A B} (R : A -> B -> Prop) l l' x : image_of R l l' -> In x l -> (exists y, R x y) -> exists y, In y l' /\ R x y.
Proof.
  induction 1 as [|a z l l' H I IH|a l l' H I IH]; cbn [In]; [tauto| |].
  - intros [<-|Hx] E; [eauto|]. destruct (IH Hx E) as (y & Hy & Ry). eauto.
  - intros [<-|Hx] [y E]; [exfalso; eapply H; eauto|]. destruct (IH Hx (ex_intro _ y E)) as (z & Hz & Rz). eauto.
Qed.
Lemma image_map {A B C} (R : A -> B -> Prop) (f : B -> C) (g : A -> option C) l l' :
  image_of R l l' -> (forall x y, R x y -> g x = Some (f y)) -> (forall x, (forall y, ~ R x y) -> g x = None) ->
  map f l' = collect g l.
Proof.
  induction 1 as [|x y l l' H I IH|x l l' H I IH]; intros G1 G2; cbn [map collect]; auto.
  - rewrite (G1 _ _ H). f_equal. auto.
  - rewrite (G2 _ H). auto.
Qed.
Lemma image_weaken {A B} (R S : A -> B -> Prop) l l' :
  (forall x y, R x y -> S x y) -> (forall x y, S x y -> exists z, R x z) -> image_of R l l' -> image_of S l l'.
Proof.
  intros H K I. induction I; [constructor|apply image_keep; auto|apply image_skip; auto].
  intros z C. destruct (K _ _ C) as [w D]. eapply H0; eauto.
Qed.
Lemma image_nodup {A B K} (R : A -> B -> Prop) (f : A -> K) (g : B -> K) l l' :
  image_of R l l' -> (forall x y, R x y -> g y = f x) -> NoDup (map f l) -> NoDup (map g l').
Proof.
  intros I H. induction I as [|x y l l' Hr I IH|x l l' Hr I IH]; cbn [map]; intro ND; [constructor| |].
  - inversion_clear ND. constructor; auto. intro C. apply in_map_iff in C. destruct C as (z & E & Hz).
    destruct (image_In_l _ _ _ _ I Hz) as (w & Hw & Rw). apply H0. rewrite <- (H _ _ Hr), <- E, (H _ _ Rw). now apply in_map.
  - inversion_clear ND. auto.
Qed.
(** sorting by a key without duplicates *)
Lemma sorted_strict {A} (f : A -> string) l :
  NoDup (map f l) -> StronglySorted (fun a b => slt (f a) (f b)) (isort (fun a b => String.ltb (f a) (f b)) l).
Proof.
  intro ND. pose proof (isort_sorted (fun a b => String.ltb (f a) (f b)) (fun _ => True) (swo_by _ f _ swo_string) l
                          (proj2 (Forall_forall _ _) (fun _ _ => I))) as S.
  pose proof (isort_perm (fun a b => String.ltb (f a) (f b)) l) as P.
  assert (ND' : NoDup (map f (isort (fun a b => String.ltb (f a) (f b)) l))) by (eapply Permutation_NoDup; [apply Permutation_map, P|exact ND]).
  clear P ND. induction S as [|a m S IH F]; [constructor|]. cbn [map] in ND'. inversion_clear ND'.
  constructor; auto. apply Forall_forall. intros b Hb. rewrite Forall_forall in F. specialize (F _ Hb). cbn in F.
  apply ltb_false_iff in F. destruct F as [E|L]; auto. exfalso. apply H. rewrite E. now apply in_map.
Qed.
Lemma isort_on_key {A} (f : A -> string) lt l :
  (forall x y, In x l -> In y l -> lt x y = String.ltb (f x) (f y)) ->
  isort lt l = isort (fun a b => String.ltb (f a) (f b)) l.
Proof.
  induction l as [|x l IH]; intro H; cbn [isort]; auto. rewrite IH by (intros; apply H; now right).
  assert (G : forall m, incl m (x :: l) -> insert lt x m = insert (fun a b => String.ltb (f a) (f b)) x m).
  { induction m as [|y m IHm]; intro HI; cbn [insert]; auto.
    rewrite (H y x) by (try (now left); apply HI; now left). destruct (String.ltb _ _); auto. f_equal. apply IHm.
    intros z Hz. apply HI. now right. }
  apply G. intros z Hz. apply isort_in in Hz. now right.
Qed.
Lemma pure_label_href labels href : get_pure_label (get_label labels href) = href.
Proof.
  pose proof (get_label_is_pack labels href) as P.
  unfold get_pure_label, get_label_at.
  assert (E : lk (get_label labels href) Default PureLabel = Some href); [|unfold lk in E; destruct (sget Default _); [|discriminate]; now rewrite E].
  unfold get_label. rewrite modifiers_flat, lk_fold.
  replace (find _ _) with (@None path); [|symmetry; apply find_rev_None].
  - unfold lk. cbn. reflexivity.
  - intros x _. rewrite andb_false_iff. right. unfold labelsb.
    destruct (role_of _); auto. unfold lang_of. destruct (String.eqb (llLang _) "en-US"); [now rewrite andb_false_r|].
    destruct (String.eqb (llLang _) "es"); [now rewrite andb_false_r|]. reflexivity.
Qed.

(** ** The grid *)
Section Grid.
  Variable tree : list arc -> string -> rarc.
  Variable lbl : string -> label_pack.
  Hypothesis pure : forall href, get_pure_label (lbl href) = href.
  Variable concept_of : string -> option concept.
  Variable genv : string -> grid_env.
  Variable entity : string.
  Notation items_of order role lbs := (get_summation_items tree lbl concept_of genv entity order role lbs).
  Notation item := (item_of tree lbl concept_of genv entity).
  Notation step := (c_source tree lbl concept_of genv entity).

  Lemma sorted_items l :
    (forall si, In si l -> siLabel si = lbl (siHref si)) ->
    isort item_less l = isort (fun a b => String.ltb (siHref a) (siHref b)) l.
  Proof.
    intro H. apply isort_on_key. intros x y Hx Hy. unfold item_less. rewrite (H x Hx), (H y Hy), !pure. reflexivity.
  Qed.
  Lemma grid_inv order role lbs items roles langs :
    items_of order role lbs = Ok (items, roles, langs) ->
    (first_link role lbs = None /\ items = []) \/
    exists lb k new, first_link role lbs = Some (lb, k) /\
      image_of (fun fs si => exists langs, item (c_map role lb (lArcs k)) langs fs si) (order (c_map role lb (lArcs k))) new /\
      items = isort (fun a b => String.ltb (siHref a) (siHref b)) new.
  Proof.
    unfold get_summation_items. rewrite calc_link_eq by (intros ? []).
    destruct (first_link role lbs) as [[lb k]|]; [|intros [= <- <- <-]; auto].
    cbv zeta. destruct (foldM _ _ _) as [st|?|] eqn:E; cbn [bind]; try discriminate.
    intros [= <- <- <-]. right. exists lb, k, (stItems st).
    destruct (fold_items _ _ _ _ _ _ _ _ _ E) as (new & EN & IM). cbn [stItems app] in EN. rewrite EN.
    split; auto. split; auto. apply sorted_items.
    intros si Hs. destruct (image_In_l _ _ _ _ IM Hs) as ([from slice] & _ & langs & R).
    apply item_href in R. destruct R as [-> ->]. reflexivity.
  Qed.
  Lemma item_exists_langs cmap langs fs si langs' : item cmap langs fs si -> exists si', item cmap langs' fs si'.
  Proof.
    destruct fs as [from slice]. cbn.
    intros (k & cols & seg & scen & cp & mb & vd & fa & fg & no & E1 & E2 & E3 & E4 & ->).
    destruct (quadrant_total tree (ge_cell (genv from)) (ge_id_order (genv from)) (ge_id_order_final (genv from))
                (map ccHref (collect (contributing_of lbl concept_of cmap) slice) ++ [from])%list cols langs') as [[[f2 g2] n2] Q].
    eexists. do 10 eexists. repeat (split; [eauto; fail|]). reflexivity.
  Qed.
  Lemma new_hrefs order role lb k new :
    (forall m, Permutation (order m) m) ->
    image_of (fun fs si => exists langs, item (c_map role lb (lArcs k)) langs fs si) (order (c_map role lb (lArcs k))) new ->
    NoDup (map siHref new).
  Proof.
    intros HO IM. eapply (image_nodup _ fst siHref); [exact IM| |].
    - intros x y (langs & R). now apply item_href in R.
    - eapply Permutation_NoDup; [apply Permutation_map; symmetry; apply HO|]. apply c_map_is_map.
  Qed.
  Lemma contributing_shows role lb k a c :
    contributing_of lbl concept_of (c_map role lb (lArcs k)) (c_struct_of role lb a) = Some c ->
    shows_arc lbl concept_of role lb k a c.
  Proof.
    unfold contributing_of, c_struct_of. cbn [csHref csOrder csSign csScale].
    destruct (concept_of _) as [t|] eqn:E; [|discriminate]. intros [= <-]. unfold shows_arc. cbn.
    split; [apply locates_fun|]. split; [eauto|]. split; auto. split; [apply format_sign|]. split; [apply format_scale|].
    rewrite <- c_map_source. destruct (sget _ _) eqn:G; split; auto; intros; try discriminate; eauto.
    destruct H as [? H]. discriminate.
  Qed.
  Lemma image_collect {A B} (f : A -> option B) (R : A -> B -> Prop) l :
    (forall x y, f x = Some y -> R x y) -> (forall x y, R x y -> f x <> None) -> image_of R l (collect f l).
  Proof.
    intros H K. induction l as [|x l IH]; cbn [collect]; [constructor|]. destruct (f x) eqn:E; constructor; auto.
    intros y C. apply K in C. congruence.
  Qed.
  Lemma collect_map {A B C} (f : B -> option C) (g : A -> B) l : collect f (map g l) = collect (fun x => f (g x)) l.
  Proof. induction l as [|x l IH]; cbn [collect map]; auto. destruct (f (g x)); now rewrite IH. Qed.
  Lemma item_lists role lb k langs fs si :
    (forall a, In a (lArcs k) -> caOrder a <> S754_nan) ->
    In fs (c_map role lb (lArcs k)) -> item (c_map role lb (lArcs k)) langs fs si ->
    shows_source lbl concept_of role lb k si /\ lists_its_arcs lbl concept_of role lb k si.
  Proof.
    destruct fs as [from slice]. intros HN Hin. cbn.
    intros (t & cols & seg & scen & cp & mb & vd & fa & fg & no & E1 & E2 & E3 & E4 & ->).
    pose proof (proj2 (sget_iff _ _ _ (c_map_is_map role lb (lArcs k))) Hin) as G.
    split.
    - split; [apply c_map_source; eauto|]. cbn. split; eauto.
    - apply c_map_get in G. destruct G as [_ ->]. unfold lists_its_arcs. cbn [siHref siContributing].
      exists (filter (fromb role lb from) (lArcs k)), (isort by_arc_order (filter (fromb role lb from) (lArcs k))).
      split; [apply those_filter, frombP|]. split.
      + apply isort_stably_sorted_on with (P := fun a => caOrder a <> S754_nan); [apply swo_carc|].
        apply Forall_forall. intros a Ha. apply filter_In in Ha. apply HN. tauto.
      + rewrite collect_map. apply image_collect.
        * intros a c. apply contributing_shows.
        * intros a c (L & (t' & E & _) & _). unfold contributing_of, c_struct_of. cbn [csHref].
          rewrite (locates_unique _ _ _ _ _ (locates_fun lb role (caTo a)) L), E. discriminate.
  Qed.
  Lemma erase_same a b : erase a = erase b -> same_item a b.
  Proof. unfold erase, same_item. intros [= -> -> -> -> -> -> -> -> ->]. auto 10. Qed.

  Lemma collect_perm {A B} (f : A -> option B) l l' : Permutation l l' -> Permutation (collect f l) (collect f l').
  Proof. rewrite !collect_filter_map. apply filter_map_perm. Qed.

  (** relating the sorted results of two iteration orders *)
  Lemma sorted_match {A} (f : A -> string) (R : A -> A -> Prop) l l' :
    NoDup (map f l) -> NoDup (map f l') ->
    (forall x, In x l -> exists y, In y l' /\ f y = f x) -> (forall y, In y l' -> exists x, In x l /\ f x = f y) ->
    (forall x y, In x l -> In y l' -> f x = f y -> R x y) ->
    Forall2 R (isort (fun a b => String.ltb (f a) (f b)) l) (isort (fun a b => String.ltb (f a) (f b)) l').
  Proof.
    intros N N' H1 H2 HR.
    pose proof (sorted_strict f l N) as S. pose proof (sorted_strict f l' N') as S'.
    set (s := isort _ l) in *. set (s' := isort _ l') in *.
    assert (I : forall x, In x s <-> In x l) by (intro; apply isort_in).
    assert (I' : forall x, In x s' <-> In x l') by (intro; apply isort_in).
    assert (EK : map f s = map f s').
    { apply (sorted_perm_unique slt).
      - intros x y _ _ L L'. exfalso. eapply slt_irrefl, slt_trans; eauto.
      - clear - S. induction S as [|a m S IH F]; cbn [map]; constructor; auto.
        apply Forall_forall. intros k Hk. apply in_map_iff in Hk. destruct Hk as (b & <- & Hb).
        rewrite Forall_forall in F. auto.
      - clear - S'. induction S' as [|a m S IH F]; cbn [map]; constructor; auto.
        apply Forall_forall. intros k Hk. apply in_map_iff in Hk. destruct Hk as (b & <- & Hb).
        rewrite Forall_forall in F. auto.
      - apply NoDup_Permutation.
        + eapply Permutation_NoDup; [apply Permutation_map, isort_perm|exact N].
        + eapply Permutation_NoDup; [apply Permutation_map, isort_perm|exact N'].
        + intro k. rewrite !in_map_iff. split.
          * intros (x & <- & Hx). apply I in Hx. destruct (H1 _ Hx) as (y & Hy & E). exists y. split; auto. now apply I'.
          * intros (y & <- & Hy). apply I' in Hy. destruct (H2 _ Hy) as (x & Hx & E). exists x. split; auto. now apply I. }
    assert (HR' : forall x y, In x s -> In y s' -> f x = f y -> R x y).
    { intros x y Hx Hy. apply HR; [now apply I|now apply I']. }
    clearbody s s'. clear - EK HR'. revert s' EK HR'. induction s as [|x s IH]; intros [|y s'] EK HR'; cbn [map] in EK; try discriminate; constructor.
    - injection EK as E _. apply HR'; auto; now left.
    - injection EK as _ E. apply IH; auto. intros; apply HR'; auto; now right.
  Qed.
  Lemma two_orders (P Q : string * list c_struct -> summation_item -> Prop) (R : summation_item -> summation_item -> Prop)
      (cmap l l' : list (string * list c_struct)) new new' :
    is_map cmap -> Permutation l cmap -> Permutation l' cmap ->
    image_of P l new -> image_of Q l' new' ->
    (forall fs si, P fs si -> siHref si = fst fs) -> (forall fs si, Q fs si -> siHref si = fst fs) ->
    (forall fs, (exists si, P fs si) <-> (exists si, Q fs si)) ->
    (forall fs si si', P fs si -> Q fs si' -> R si si') ->
    Forall2 R (isort (fun a b => String.ltb (siHref a) (siHref b)) new)
              (isort (fun a b => String.ltb (siHref a) (siHref b)) new').
  Proof.
    intros M PL PL' IP IQ HP HQ PQ HR.
    assert (ND : forall m, Permutation m cmap -> NoDup (map fst m)).
    { intros m Pm. eapply Permutation_NoDup; [apply Permutation_map; symmetry; exact Pm|exact M]. }
    apply sorted_match.
    - eapply image_nodup; eauto.
    - eapply image_nodup; eauto.
    - intros x Hx. destruct (image_In_l _ _ _ _ IP Hx) as (fs & Hfs & Px).
      assert (Hfs' : In fs l') by (eapply Permutation_in; [symmetry; exact PL'|]; eapply Permutation_in; [exact PL|exact Hfs]).
      destruct (image_In_r _ _ _ _ IQ Hfs' (proj1 (PQ fs) (ex_intro _ _ Px))) as (y & Hy & Qy).
      exists y. split; auto. rewrite (HP _ _ Px). now apply HQ.
    - intros y Hy. destruct (image_In_l _ _ _ _ IQ Hy) as (fs & Hfs & Qy).
      assert (Hfs' : In fs l) by (eapply Permutation_in; [symmetry; exact PL|]; eapply Permutation_in; [exact PL'|exact Hfs]).
      destruct (image_In_r _ _ _ _ IP Hfs' (proj2 (PQ fs) (ex_intro _ _ Qy))) as (x & Hx & Px).
      exists x. split; auto. rewrite (HQ _ _ Qy). now apply HP.
    - intros x y Hx Hy E. destruct (image_In_l _ _ _ _ IP Hx) as (fs & Hfs & Px).
      destruct (image_In_l _ _ _ _ IQ Hy) as (fs' & Hfs' & Qy).
      assert (fs = fs').
      { rewrite (HP _ _ Px), (HQ _ _ Qy) in E. destruct fs as [a v], fs' as [b w]. cbn in E. subst b. f_equal.
        assert (I1 : In (a, v) cmap) by (eapply Permutation_in; [exact PL|exact Hfs]).
        assert (I2 : In (a, w) cmap) by (eapply Permutation_in; [exact PL'|exact Hfs']).
        apply sget_iff in I1; auto. apply sget_iff in I2; auto. congruence. }
      subst fs'. eauto.
  Qed.
  Lemma ok_any order order' role lbs r :
    (forall m, Permutation (order m) m) -> (forall m, Permutation (order' m) m) ->
    items_of order role lbs = Ok r -> exists r', items_of order' role lbs = Ok r'.
  Proof.
    intros HO HO'. unfold get_summation_items. rewrite !calc_link_eq by (intros ? []).
    destruct (first_link role lbs) as [[lb k]|]; [|eauto]. cbv zeta.
    destruct (foldM _ (order _) _) as [st|?|] eqn:E; cbn [bind]; try discriminate. intros _.
    apply fold_any in E. destruct E as [_ F].
    destruct (fold_all tree lbl concept_of genv entity (c_map role lb (lArcs k)) (order' (c_map role lb (lArcs k)))) with (st := CState [] [] [] []) as [st' ->].
    - apply Forall_forall. intros fs Hfs. rewrite Forall_forall in F. apply F.
      eapply Permutation_in; [symmetry; apply HO|]. eapply Permutation_in; [apply HO'|exact Hfs].
    - cbn [bind]. eauto.
  Qed.
End Grid.

(** ** Cells in different languages *)
Lemma render_agree e f l l' x y : render e f l = Ok x -> render e f l' = Ok y -> agree x y.
Proof.
  destruct f as [f|].
  - destruct (fIsNil f) eqn:N.
    + unfold render. rewrite N. intros [= <-] [= <-] lang a b [H|[]] [K|[]]. congruence.
    + intros E E' lang a b Ha Hb.
      destruct (C85_expression _ _ _ _ _ _ N E Ha) as [[L S]|[L S]], (C85_expression _ _ _ _ _ _ N E' Hb) as [[L' S']|[L' S']];
        try contradiction; eapply C85_unique; eauto.
  - intros [= <-] [= <-] lang a b [H|[]] [K|[]]. congruence.
Qed.
Lemma render_langs_same e f l l' x y :
  (forall lang, In lang l <-> In lang l') ->
  render e f l = Ok x -> render e f l' = Ok y -> forall lang, In lang (map fst x) <-> In lang (map fst y).
Proof.
  intro H. destruct f as [f|].
  - destruct (fIsNil f) eqn:N.
    + unfold render. rewrite N. intros [= <-] [= <-]. tauto.
    + destruct (C75_languages e f l N) as (m & E & _ & K). destruct (C75_languages e f l' N) as (m' & E' & _ & K').
      rewrite E, E'. intros [= <-] [= <-] lang. rewrite K, K', H. tauto.
  - intros [= <-] [= <-]. tauto.
Qed.
Lemma Forall2_both {A B C} (R : A -> B -> Prop) (S : A -> C -> Prop) (T : B -> C -> Prop) l l1 l2 :
  (forall x y z, R x y -> S x z -> T y z) -> Forall2 R l l1 -> Forall2 S l l2 -> Forall2 T l1 l2.
Proof.
  intros H F. revert l2. induction F; intros l2 G; inversion_clear G; constructor; eauto.
Qed.
Lemma quadrant_cells tree env io iof hrefs cols langs langs' rows g n rows' g' n' (T : list (string * fact_expression) -> list (string * fact_expression) -> Prop) :
  (forall e f x y, render e f langs = Ok x -> render e f langs' = Ok y -> T x y) ->
  get_factual_quadrant tree env io iof hrefs cols langs = Ok (rows, g, n) ->
  get_factual_quadrant tree env io iof hrefs cols langs' = Ok (rows', g', n') ->
  Forall2 (Forall2 T) rows rows'.
Proof.
  intros HT E E'. destruct hrefs as [|h0 t0].
  - cbn in E, E'. injection E as <- _ _. injection E' as <- _ _. constructor.
  - destruct cols as [|c0 u0].
    + cbn in E, E'. injection E as <- _ _. injection E' as <- _ _. constructor.
    + assert (NH : h0 :: t0 <> []) by discriminate. assert (NC : c0 :: u0 <> []) by discriminate.
      destruct (quadrant_inv _ _ _ _ _ _ _ _ _ _ NH NC E) as (F & _ & _).
      destruct (quadrant_inv _ _ _ _ _ _ _ _ _ _ NH NC E') as (F' & _ & _).
      eapply Forall2_both; [|exact F|exact F']. intros a b c R S. cbn beta in R, S.
      eapply Forall2_both; [|exact R|exact S]. intros a' b' c' R' S'. cbn beta in R', S'. exact (HT _ _ _ _ R' S').
Qed.
Lemma item_cells tree lbl concept_of genv entity cmap langs langs' fs si si' (T : list (string * fact_expression) -> list (string * fact_expression) -> Prop) :
  (forall e f x y, render e f langs = Ok x -> render e f langs' = Ok y -> T x y) ->
  item_of tree lbl concept_of genv entity cmap langs fs si ->
  item_of tree lbl concept_of genv entity cmap langs' fs si' -> Forall2 (Forall2 T) (siFacts si) (siFacts si').
Proof.
  intro HT. destruct fs as [from slice]. cbn.
  intros (k & cols & seg & scen & cp & mb & vd & fa & fg & no & E1 & E2 & E3 & E4 & ->)
         (k' & cols' & seg' & scen' & cp' & mb' & vd' & fa' & fg' & no' & E1' & E2' & E3' & E4' & ->).
  rewrite E2 in E2'. injection E2' as <- <- <- <-. cbn. eapply quadrant_cells; eauto.
Qed.

(** ** Labels that are alike *)
Lemma holds_sget p role m : is_pack p -> sget role p = Some m -> forall lang, In lang (map fst m) <-> exists t, holds p role lang t.
Proof.
  intros [N _] H lang. rewrite in_map_iff. split.
  - intros ([l t] & E & Hl). cbn in E. subst l. exists t, m. split; auto. now apply sget_iff.
  - intros (t & m' & Hm & Hl). apply sget_iff in Hm; auto. rewrite H in Hm. injection Hm as ->. exists (lang, t). auto.
Qed.
Lemma alike_langs packs p0 :
  packs <> [] -> Forall (fun p => is_pack p /\ alike p p0) packs ->
  forall lang, In lang (snd (roles_and_langs packs)) <-> exists role t, holds p0 role lang t.
Proof.
  intros NE F lang. unfold roles_and_langs.
  assert (W : forall q, In q packs -> is_pack q) by (intros q Hq; rewrite Forall_forall in F; now apply F).
  assert (AL : forall q, In q packs -> alike q p0) by (intros q Hq; rewrite Forall_forall in F; now apply F).
  destruct (reduce packs) as [p|] eqn:E; [|destruct packs as [|? [|? ?]]; [congruence|discriminate..]].
  rewrite (destruct_langs p lang (reduce_is_pack _ _ W E)). split.
  - intros (role & m & G & Hl). rewrite (reduce_get packs p role W E) in G.
    destruct (find _ (rev packs)) as [q|] eqn:Fq; [|discriminate].
    apply find_some in Fq. destruct Fq as [Hq _]. apply in_rev in Hq.
    apply (holds_sget q role m (W q Hq) G) in Hl. apply (proj2 (AL q Hq)) in Hl. destruct Hl as [t Ht]. eauto.
  - intros (role & t & Ht). exists role.
    destruct (find (fun q => match sget role q with Some _ => true | None => false end) (rev packs)) as [q|] eqn:Fq.
    + pose proof (reduce_get packs p role W E) as G. rewrite Fq in G.
      apply find_some in Fq. destruct Fq as [Hq Hr]. apply in_rev in Hq.
      destruct (sget role q) as [m|] eqn:S; [|discriminate]. exists m. split; auto.
      apply (holds_sget q role m (W q Hq) S). apply (proj2 (AL q Hq)). eauto.
    + exfalso. destruct packs as [|q rest]; [congruence|].
      assert (Hq : In q (rev (q :: rest))) by (apply -> in_rev; now left).
      eapply find_none in Fq; [|exact Hq]. cbn beta in Fq.
      destruct (proj2 (proj2 (AL q (or_introl eq_refl)) role lang) (ex_intro _ t Ht)) as (t' & m & Hm & _).
      apply sget_iff in Hm; [|apply (W q); now left]. rewrite Hm in Fq. discriminate.
Qed.

(** the packs of a source are labels of the hrefs the grid uses *)
Lemma context_packs lbl tree typed_order c p :
  In p (cxPacks (get_contextual_members tree lbl typed_order c)) ->
  exists h d, p = lbl h /\ (d = ctxSegment c \/ d = ctxScenario c) /\
     ((exists e, In e (dcExplicit d) /\ (h = emDimHref e \/ h = emMemHref e)) \/
      (exists t, In t (dcTyped d) /\ h = tmDimHref t)).
Proof.
  cbn. unfold explicit_packs, typed_packs. rewrite !in_app_iff, !in_flat_map.
  intros [(e & He & H)|[(e & He & H)|[(e & He & H)|(e & He & H)]]]; cbn in H.
  - destruct H as [<-|[<-|[]]]; eexists; exists (ctxSegment c); split; try reflexivity; split; auto; left; exists e; auto.
  - assert (p = lbl (tmDimHref e)) as -> by (destruct H as [<-|[<-|[]]]; reflexivity).
    eexists; exists (ctxSegment c); split; try reflexivity; split; auto; right; exists e; auto.
  - destruct H as [<-|[<-|[]]]; eexists; exists (ctxScenario c); split; try reflexivity; split; auto; left; exists e; auto.
  - assert (p = lbl (tmDimHref e)) as -> by (destruct H as [<-|[<-|[]]]; reflexivity).
    eexists; exists (ctxScenario c); split; try reflexivity; split; auto; right; exists e; auto.
Qed.
Lemma adds_labels tree labels concept_of genv entity role lb k insts fs added :
  (forall from, incl (ge_instances (genv from)) insts) ->
  In fs (c_map role lb (lArcs k)) ->
  adds tree (get_label labels) concept_of genv entity (c_map role lb (lArcs k)) fs added ->
  added <> [] /\ Forall (fun p => exists h, p = get_label labels h /\ labelled_href role lb k insts h) added.
Proof.
  destruct fs as [from slice]. intros HI Hin. cbn [adds].
  intros (cols & seg & scen & cpacks & E & ->). split.
  { intro C. apply app_eq_nil in C. destruct C as [_ C]. discriminate. }
  pose proof (proj2 (sget_iff _ _ _ (c_map_is_map role lb (lArcs k))) Hin) as G.
  rewrite !Forall_app. split; [|split].
  - apply Forall_forall. intros p Hp. apply in_map_iff in Hp. destruct Hp as (c & <- & Hc).
    apply SchemaProofs.collect_In in Hc. destruct Hc as (cs & Hcs & Hc).
    apply c_map_get in G. destruct G as [_ ->]. apply in_map_iff in Hcs. destruct Hcs as (a & <- & Ha).
    apply isort_in, filter_In in Ha. apply contributing_shows in Hc. destruct Hc as (L & _ & EL & _).
    exists (ccHref c). split; auto. left. exists a. split; [tauto|auto].
  - constructor; [|constructor]. exists from. split; auto. left.
    apply c_map_get in G. destruct G as [NE _]. destruct (filter (fromb role lb from) (lArcs k)) as [|a l] eqn:FE; [congruence|].
    assert (Ha : In a (filter (fromb role lb from) (lArcs k))) by (rewrite FE; now left).
    apply filter_In in Ha. exists a. split; [tauto|]. left. destruct Ha as [_ Ha]. apply frombP in Ha. apply Ha.
  - destruct (relevant_spec tree (get_label labels) concept_of (ge_typed_order (genv from)) entity (ge_instances (genv from))
               (map ccHref (collect (contributing_of (get_label labels) concept_of (c_map role lb (lArcs k))) slice) ++ [from])%list)
      as [[_ P]|[_ (css & F & Q)]]; [congruence|].
    rewrite Q in E. injection E as _ _ _ <-. apply Forall_forall. intros p Hp. apply in_flat_map in Hp.
    destruct Hp as (c & Hc & Hp). apply in_concat in Hc. destruct Hc as (cs & Hcs & Hc).
    destruct (Forall2_In_r _ _ _ _ F Hcs) as (i & Hi & _ & HR). apply HR in Hc.
    destruct Hc as (f & _ & _ & _ & (l1 & l2 & EC & _) & _).
    cbn in Hp. apply (context_packs _ tree (ge_typed_order (genv from))) in Hp. destruct Hp as (h & d & -> & Hd & HH).
    exists h. split; auto. right. exists i, c, d. split; [now apply (HI from)|].
    split; [rewrite EC; apply in_or_app; right; now left|]. split; auto.
Qed.
