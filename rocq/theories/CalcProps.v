(** * CalcProps: C25-C27, C86 *)
From Verif Require Import GoBase GoSpec GoFacts AttrModel SchemaModel LinkbaseModel InstanceModel
  LabelModel LabelSpec LabelProofs PeriodSpec PeriodProofs FactModel GridModel GridSpec GridProofs GridProps
  CalcModel CalcSpec CalcProofs.
Local Open Scope string_scope.

(** ** A sample link, filing and label linkbase *)
Definition half : f64 := S754_finite false 4503599627370496 (-53).
Definition num (n : nat) : f64 := f64_of_nat n.
Definition carc_ (order : f64) (from to : string) (weight : f64) : carc :=
  CArc order "http://www.xbrl.org/2003/arcrole/summation-item" from to weight.
Definition calc_role := "http://e/role/calc".
Definition sample_calc : linkbase carc :=
  Linkbase "c.xml" [RoleRef calc_role "e.xsd#calc"]
    [Link calc_role
       [Loc "t#Total" "l0"; Loc "t#A" "l1"; Loc "t#B" "l2"; Loc "t#C" "l3"; Loc "t#None" "l4"]
       [carc_ (num 2) "l0" "l1" (num 1); CArc (num 3) "other" "l0" "l3" (num 1);
        carc_ (num 1) "l0" "l2" (SFopp (num 1)); carc_ (num 3) "l0" "l4" (num 1);
        carc_ (num 1) "l2" "l3" half; carc_ (num 1) "l4" "l3" (num 1)]].
Definition calc_concept (h : string) : option concept :=
  if existsb (String.eqb h) ["t#Total"; "t#A"; "t#B"; "t#C"]
  then Some (Concept (XName "t" h) h (XName "x" "stringItemType") (XName "" "") false "duration" "credit" false "")
  else None.
Definition calc_instance : instance :=
  Instance "i.xml" [plain_context "c1" "2020-01-01" "2020-12-31" no_dims] [] []
    [Fact "t#Total" "f1" "c1" "" Precisionless false "12"; Fact "t#B" "f2" "c1" "" Precisionless false "3"].
Definition calc_renv : renv := REnv calc_concept (fun _ => (None, None)) (fun _ => []) (fun _ _ _ => None) (fun _ => None).
Definition calc_genv (_ : string) : grid_env :=
  GridEnv [calc_instance] in_document_order (fun l => l)
    (fun _ _ => CellEnv [calc_instance] [calc_instance] [calc_instance] calc_renv) (fun _ _ l => l) (fun l => l) (fun x => x).
(** t#Total has an English label, t#C an English label and a Spanish terse label *)
Definition calc_labels : list label_linkbase :=
  let arc_ f t := LArc (num 1) "http://www.xbrl.org/2003/arcrole/concept-label" f t in
  [LabelLinkbase "l.xml" []
     [LabelLink "http://www.xbrl.org/2003/role/link" [Loc "t#Total" "a"; Loc "t#C" "b"]
        [LabelElem "x" "http://www.xbrl.org/2003/role/label" "en-US" "Total";
         LabelElem "y" "http://www.xbrl.org/2003/role/label" "en-US" "Part";
         LabelElem "z" "http://www.xbrl.org/2003/role/terseLabel" "es" "Parte"]
        [arc_ "a" "x"; arc_ "b" "y"; arc_ "b" "z"]]].
Definition sample_items (order : list (string * list c_struct) -> list (string * list c_struct)) :=
  get_summation_items sample_tree (get_label calc_labels) calc_concept calc_genv "http://cik/0001" order calc_role [sample_calc].

(** C25 *)
Theorem C25_items :
  forall tree lbl concept_of genv entity order role lbs items roles langs,
    (forall href, exists labels, lbl href = get_label labels href) ->
    (forall m, Permutation (order m) m) ->
    (forall lb k a, In lb lbs -> In k (lbLinks lb) -> In a (lArcs k) -> caOrder a <> S754_nan) ->
    get_summation_items tree lbl concept_of genv entity order role lbs = Ok (items, roles, langs) ->
    (forall lb, In lb lbs -> ~ has_network role lb) /\ items = [] \/
    exists lb k, shown_link role lbs lb k /\
      NoDup (map siHref items) /\
      (forall h, In h (map siHref items) <-> is_source role lb k h /\ concept_of h <> None) /\
      forall si, In si items ->
        shows_source lbl concept_of role lb k si /\
        lists_its_arcs lbl concept_of role lb k si.
Proof.
  intros tree lbl concept_of genv entity order role lbs items roles langs HL HO HN E.
  assert (PL : forall x, get_pure_label (lbl x) = x) by (intro x; destruct (HL x) as (labels&->); apply pure_label_href).
  assert (NL : first_link role lbs = None -> forall lb, In lb lbs -> ~ has_network role lb).
  { clear. induction lbs as [|l rest IH]; cbn [first_link]; [intros _ ? []|].
    pose proof (has_networkP role l) as HP. destruct (if existsb _ _ then _ else _); [discriminate|].
    intros F lb [<-|H] C; [apply HP in C; congruence|]. eapply IH; eauto. }
  pose proof E as E0.
  destruct (grid_inv _ _ PL _ _ _ _ _ _ _ _ _ E) as [[F ->]|(lb & k & new & F & IM & ->)]; [left; split; auto|].
  right. exists lb, k. pose proof (first_link_shown _ _ _ _ F) as SL. split; auto.
  assert (HK : forall a, In a (lArcs k) -> caOrder a <> S754_nan).
  { destruct SL as [(l1 & l2 & -> & _) (k1 & k2 & EK & _)]. intros a Ha. apply (HN lb k a); auto.
    - apply in_or_app. right. now left.
    - rewrite EK. apply in_or_app. right. now left. }
  pose proof (new_hrefs _ _ _ _ _ _ _ _ _ _ HO IM) as ND. split.
  { eapply Permutation_NoDup; [apply Permutation_map, isort_perm|exact ND]. }
  split.
  - intro h. rewrite in_map_iff. setoid_rewrite isort_in. split.
    + intros (si & <- & Hs). destruct (image_In_l _ _ _ _ IM Hs) as ([from slice] & Hfs & ls & R).
      pose proof (item_href _ _ _ _ _ _ _ _ _ R) as [-> _]. cbn [fst].
      apply item_concept in R as C. split; auto.
      apply c_map_source. exists slice. apply sget_iff; [apply c_map_is_map|].
      eapply Permutation_in; [apply HO|exact Hfs].
    + intros [S C]. apply c_map_source in S. destruct S as [slice S].
      apply sget_iff in S; [|apply c_map_is_map].
      assert (Hfs : In (h, slice) (order (c_map role lb (lArcs k)))) by (eapply Permutation_in; [symmetry; apply HO|exact S]).
      assert (NS : exists l1 l2, order (c_map role lb (lArcs k)) = (l1 ++ (h, slice) :: l2)%list) by now apply in_split.
      (* the fold got past this source, so its item exists *)
      unfold get_summation_items in E0. rewrite calc_link_eq in E0 by (intros ? []). rewrite F in E0. cbv zeta in E0.
      destruct (foldM _ _ _) as [st|?|] eqn:FM; cbn [bind] in E0; try discriminate.
      apply fold_any in FM. destruct FM as [_ FA]. rewrite Forall_forall in FA.
      destruct (FA _ Hfs (CState [] [] [] [])) as [st' ST].
      destruct (step_inv _ _ _ _ _ _ _ _ _ ST) as (added & _ & _ & _ & [[C' _]|(si & R & _)]); [contradiction|].
      assert (EX : exists y langs0, item_of tree lbl concept_of genv entity (c_map role lb (lArcs k)) langs0 (h, slice) y) by eauto.
      destruct (image_In_r _ _ _ _ IM Hfs EX) as (si' & Hs' & ls' & R').
      exists si'. split; auto. now apply item_href in R'.
  - intros si Hs. apply isort_in in Hs. destruct (image_In_l _ _ _ _ IM Hs) as (fs & Hfs & ls & R).
    eapply item_lists; eauto. eapply Permutation_in; [apply HO|exact Hfs].
Qed.
Print Assumptions C25_items.
(** the columns, cells and member rows of an item: C14-C22, C31, C32 say what these are *)
Theorem C25_item_grid :
  forall tree labels concept_of genv entity order role lbs items roles langs si,
    get_summation_items tree (get_label labels) concept_of genv entity order role lbs = Ok (items, roles, langs) ->
    In si items ->
    let rows := (map ccHref (siContributing si) ++ [siHref si])%list in
    let g := genv (siHref si) in
    exists cols seg scen packs shown,
      get_relevant_contexts tree (get_label labels) concept_of (ge_typed_order g) entity (ge_instances g) rows
        = Ok (cols, seg, scen, packs) /\
      siPeriods si = map rcPeriod cols /\
      get_factual_quadrant tree (ge_cell g) (ge_id_order g) (ge_id_order_final g) rows cols shown
        = Ok (siFacts si, siFootnoteGrid si, siFootnotes si) /\
      get_member_grid (ge_member_order g) cols seg scen = Ok (siMembers si, siVoid si).
Proof.
  intros tree labels concept_of genv entity order role lbs items roles langs si E Hs.
  destruct (grid_inv _ _ (pure_label_href labels) _ _ _ _ _ _ _ _ _ E) as [[F ->]|(lb & k & new & F & IM & ->)]; [contradiction|].
  apply isort_in in Hs. destruct (image_In_l _ _ _ _ IM Hs) as ([from slice] & Hfs & ls & R). cbn in R.
  destruct R as (t & cols & seg & scen & cp & mb & vd & fa & fg & no & E1 & E2 & E3 & E4 & ->). cbn.
  exists cols, seg, scen, cp, ls. auto.
Qed.
Print Assumptions C25_item_grid.
Example C25_example :
  exists items roles langs, sample_items (fun m => m) = Ok (items, roles, langs) /\
    map (fun si => (siHref si, map (fun c => (ccHref c, ccSign c, ccScale c, ccIsSummation c)) (siContributing si))) items =
    [("t#B", [("t#C", "+", "0.5", false)]);
     ("t#Total", [("t#B", "-", "1.0", true); ("t#A", "+", "1.0", false)])] /\
    map siBalance items = ["credit"; "credit"] /\ map (fun si => length (siFacts si)) items = [2; 3].
Proof. vm_compute. do 3 eexists. split; [reflexivity|]. split; [reflexivity|]. split; reflexivity. Qed.

(** C26 *)
Theorem C26_sign_and_scale :
  forall lbl concept_of role lb cmap a c,
    contributing_of lbl concept_of cmap (c_struct_of role lb a) = Some c ->
    sign_text (caWeight a) (ccSign c) /\ scale_text (caWeight a) (ccScale c).
Proof.
  intros lbl concept_of role lb cmap a c. unfold contributing_of, c_struct_of. cbn [csHref csSign csScale csOrder].
  destruct (concept_of _); [|discriminate]. intros [= <-]. cbn. split; [apply format_sign|apply format_scale].
Qed.
Print Assumptions C26_sign_and_scale.
(** the specification leaves no choice *)
Theorem C26_unique :
  forall w s t, (sign_text w s -> sign_text w t -> s = t) /\ (scale_text w s -> scale_text w t -> s = t).
Proof.
  intros w s t. split.
  - intros [[A ->]|[A ->]] [[B ->]|[B ->]]; auto; contradiction.
  - destruct w as [?|?| |b m e]; cbn [scale_text]; try congruence.
    intros (n & u & v & N & -> & Du & Dv) (n' & u' & v' & N' & -> & Du' & Dv').
    assert (n = n') as <-.
    { unfold nearest_tenth in N, N'. cbv zeta in N, N'.
      set (d := (2 ^ Z.max 0 (- e))%Z) in *. set (x := (10 * (Z.pos m * 2 ^ Z.max 0 e))%Z) in *.
      assert (Pd : (0 < d)%Z) by (apply Z.pow_pos_nonneg; lia). clearbody d x. destruct N as [N1 N2], N' as [N1' N2'].
      destruct (Z.lt_trichotomy n n') as [L|[L|L]]; auto; exfalso.
      - assert (n' = n + 1)%Z by nia. subst n'. assert (2 * Z.abs (x - n * d) = d)%Z by nia.
        assert (2 * Z.abs (x - (n + 1) * d) = d)%Z by nia. destruct (N2 H) as [p Hp], (N2' H0) as [q Hq]. lia.
      - assert (n = n' + 1)%Z by nia. subst n. assert (2 * Z.abs (x - n' * d) = d)%Z by nia.
        assert (2 * Z.abs (x - (n' + 1) * d) = d)%Z by nia. destruct (N2' H) as [p Hp], (N2 H0) as [q Hq]. lia. }
    rewrite (decimal_fun _ _ _ Du Du'), (decimal_fun _ _ _ Dv Dv'). reflexivity.
Qed.
Print Assumptions C26_unique.
Example C26_example :
  (* 0.25, 0.75, 1234.5, 2^70, -0.05 *)
  map (fun w => (format_c (if SFltb w (S754_zero false) then "-"%char else "+"%char), format_1f (SFabs w)))
    [S754_finite false 4503599627370496 (-54); S754_finite true 6755399441055744 (-53); S754_finite false 5429459450462208 (-42);
     S754_finite false 4503599627370496 18; S754_finite true 7205759403792794 (-57); S754_zero true] =
  [("+", "0.2"); ("-", "0.8"); ("+", "1234.5"); ("+", "1180591620717411303424.0"); ("-", "0.1"); ("+", "0.0")].
Proof. vm_compute. reflexivity. Qed.

(** C27 *)
Theorem C27_strictly_sorted :
  forall tree labels concept_of genv entity order role lbs items roles langs,
    (forall m, Permutation (order m) m) ->
    get_summation_items tree (get_label labels) concept_of genv entity order role lbs = Ok (items, roles, langs) ->
    StronglySorted (fun a b => slt (siHref a) (siHref b)) items.
Proof.
  intros tree labels concept_of genv entity order role lbs items roles langs HO E.
  destruct (grid_inv _ _ (pure_label_href labels) _ _ _ _ _ _ _ _ _ E) as [[F ->]|(lb & k & new & F & IM & ->)]; [constructor|].
  apply sorted_strict. eapply new_hrefs; eauto.
Qed.
Print Assumptions C27_strictly_sorted.
Theorem C27_any_order :
  forall tree labels concept_of genv entity order order' role lbs items roles langs,
    (forall m, Permutation (order m) m) -> (forall m, Permutation (order' m) m) ->
    get_summation_items tree (get_label labels) concept_of genv entity order role lbs = Ok (items, roles, langs) ->
    exists items' roles' langs',
      get_summation_items tree (get_label labels) concept_of genv entity order' role lbs = Ok (items', roles', langs') /\
      Forall2 same_item items items'.
Proof.
  intros tree labels concept_of genv entity order order' role lbs items roles langs HO HO' E.
  destruct (ok_any _ _ _ _ _ _ _ _ _ _ HO HO' E) as [[[items' roles'] langs'] E'].
  exists items', roles', langs'. split; auto.
  destruct (grid_inv _ _ (pure_label_href labels) _ _ _ _ _ _ _ _ _ E) as [[F ->]|(lb & k & new & F & IM & ->)];
    destruct (grid_inv _ _ (pure_label_href labels) _ _ _ _ _ _ _ _ _ E') as [[F' ->]|(lb' & k' & new' & F' & IM' & ->)]; try congruence; [constructor|].
  rewrite F in F'. injection F' as <- <-.
  eapply (two_orders _ _ same_item); [apply c_map_is_map|apply HO|apply HO'|exact IM|exact IM'|..].
  - intros fs si (ls & R). now apply item_href in R.
  - intros fs si (ls & R). now apply item_href in R.
  - intro fs. tauto.
  - intros fs si si' (ls & R) (ls' & R'). apply erase_same. eapply item_erase; eauto.
Qed.
Print Assumptions C27_any_order.
Example C27_example :
  (forall m, Permutation (rev m) (m : list (string * list c_struct))) /\
  exists i1 r1 l1 i2 r2 l2,
    sample_items (fun m => m) = Ok (i1, r1, l1) /\ sample_items (@rev _) = Ok (i2, r2, l2) /\
    map siHref i1 = ["t#B"; "t#Total"] /\ map siHref i2 = ["t#B"; "t#Total"].
Proof. split; [intro; symmetry; apply Permutation_rev|]. vm_compute. do 6 eexists. split; [reflexivity|]. split; [reflexivity|]. split; reflexivity. Qed.

(** C86: the languages a cell is shown in depend on the items that happened to come before *)
Theorem C86_refuted :
  exists tree labels concept_of genv entity order order' role lbs items roles langs items' roles' langs' si si',
    (forall m, Permutation (order m) m) /\ (forall m, Permutation (order' m) m) /\
    get_summation_items tree (get_label labels) concept_of genv entity order role lbs = Ok (items, roles, langs) /\
    get_summation_items tree (get_label labels) concept_of genv entity order' role lbs = Ok (items', roles', langs') /\
    In si items /\ In si' items' /\ siHref si = siHref si' /\
    exists cell_ cell_', cell (siFacts si) 2 0 cell_ /\ cell (siFacts si') 2 0 cell_' /\
      ~ In "es - español" (map fst cell_) /\ In "es - español" (map fst cell_').
Proof.
  destruct (sample_items (fun m => m)) as [[[i1 r1] l1]|?|] eqn:E1; [|vm_compute in E1; discriminate..].
  destruct (sample_items (@rev _)) as [[[i2 r2] l2]|?|] eqn:E2; [|vm_compute in E2; discriminate..].
  exists sample_tree, calc_labels, calc_concept, calc_genv, "http://cik/0001", (fun m => m), (@rev _), calc_role, [sample_calc].
  exists i1, r1, l1, i2, r2, l2. vm_compute in E1, E2. injection E1 as <- <- <-. injection E2 as <- <- <-.
  do 2 eexists. split; [auto|]. split; [intro; symmetry; apply Permutation_rev|].
  split; [vm_compute; reflexivity|]. split; [vm_compute; reflexivity|].
  split; [right; left; reflexivity|]. split; [right; left; reflexivity|]. split; [reflexivity|].
  do 2 eexists. split; [eexists; split; reflexivity|]. split; [eexists; split; reflexivity|].
  split; [|cbn; tauto]. cbn. intros [H|[H|[]]]; discriminate.
Qed.
Print Assumptions C86_refuted.
(** what is missing: labels whose roles and languages differ. Under every order cells agree on
    the languages they share, and if all labels used are alike they share all of them *)
Theorem C86_shared_languages_partial :
  forall tree labels concept_of genv entity order order' role lbs items roles langs items' roles' langs',
    (forall m, Permutation (order m) m) -> (forall m, Permutation (order' m) m) ->
    get_summation_items tree (get_label labels) concept_of genv entity order role lbs = Ok (items, roles, langs) ->
    get_summation_items tree (get_label labels) concept_of genv entity order' role lbs = Ok (items', roles', langs') ->
    Forall2 (fun si si' => same_item si si' /\ same_cells (siFacts si) (siFacts si')) items items'.
Proof.
  intros tree labels concept_of genv entity order order' role lbs items roles langs items' roles' langs' HO HO' E E'.
  destruct (grid_inv _ _ (pure_label_href labels) _ _ _ _ _ _ _ _ _ E) as [[F ->]|(lb & k & new & F & IM & ->)];
    destruct (grid_inv _ _ (pure_label_href labels) _ _ _ _ _ _ _ _ _ E') as [[F' ->]|(lb' & k' & new' & F' & IM' & ->)]; try congruence; [constructor|].
  rewrite F in F'. injection F' as <- <-.
  eapply two_orders; [apply c_map_is_map|apply HO|apply HO'|exact IM|exact IM'|..].
  - intros fs si (ls & R). now apply item_href in R.
  - intros fs si (ls & R). now apply item_href in R.
  - intro fs. tauto.
  - intros fs si si' (ls & R) (ls' & R'). split; [apply erase_same; eapply item_erase; eauto|].
    eapply item_cells; [|exact R|exact R']. intros e f x y. apply render_agree.
Qed.
Print Assumptions C86_shared_languages_partial.
Theorem C86_alike_partial :
  forall tree labels concept_of genv entity order order' role lbs insts lb k items roles langs items' roles' langs',
    (forall m, Permutation (order m) m) -> (forall m, Permutation (order' m) m) ->
    (forall from, Permutation (ge_instances (genv from)) insts) ->
    (forall from x, Permutation (snd (ge_destruct (genv from) x)) (snd x)) ->
    shown_link role lbs lb k ->
    (forall h h', labelled_href role lb k insts h -> labelled_href role lb k insts h' ->
                  alike (get_label labels h) (get_label labels h')) ->
    get_summation_items tree (get_label labels) concept_of genv entity order role lbs = Ok (items, roles, langs) ->
    get_summation_items tree (get_label labels) concept_of genv entity order' role lbs = Ok (items', roles', langs') ->
    Forall2 (fun si si' => same_item si si' /\ same_cells (siFacts si) (siFacts si') /\
               Forall2 (Forall2 (fun x y => forall lang, In lang (map fst x) <-> In lang (map fst y))) (siFacts si) (siFacts si'))
            items items'.
Proof.
  intros tree labels concept_of genv entity order order' role lbs insts lb k items roles langs items' roles' langs' HO HO' HI HD SL AL E E'.
  assert (FL : first_link role lbs = Some (lb, k)).
  { destruct (first_link role lbs) as [[lb0 k0]|] eqn:F.
    - pose proof (first_link_shown _ _ _ _ F) as [S1 S2]. destruct SL as [T1 T2].
      rewrite (first_such_unique _ _ _ _ S1 T1) in *. now rewrite (first_such_unique _ _ _ _ S2 T2).
    - exfalso. destruct SL as [(l1 & l2 & -> & HN & _) _]. clear - F HN.
      induction l1 as [|l l1 IH]; cbn [app first_link] in F.
      + apply has_networkP in HN. destruct (if existsb _ _ then _ else _); congruence.
      + destruct (if existsb _ _ then _ else _); [discriminate|auto]. }
  set (cmap := c_map role lb (lArcs k)).
  assert (G : forall ord its rs ls, (forall m, Permutation (ord m) m) ->
    get_summation_items tree (get_label labels) concept_of genv entity ord role lbs = Ok (its, rs, ls) ->
    exists new, image_of (fun fs si => exists packs, packs <> [] /\
        Forall (fun p => exists h, p = get_label labels h /\ labelled_href role lb k insts h) packs /\
        item_of tree (get_label labels) concept_of genv entity cmap (snd (ge_destruct (genv (fst fs)) (roles_and_langs packs))) fs si) (ord cmap) new /\
      its = isort (fun a b => String.ltb (siHref a) (siHref b)) new).
  { intros ord its rs ls HOrd EE. unfold get_summation_items in EE. rewrite calc_link_eq in EE by (intros ? []).
    rewrite FL in EE. cbv zeta in EE. fold cmap in EE.
    destruct (foldM _ _ _) as [st|?|] eqn:FM; cbn [bind] in EE; try discriminate. injection EE as <- _ _.
    eapply (fold_packs _ _ _ _ _ _ (fun p => exists h, p = get_label labels h /\ labelled_href role lb k insts h)) in FM;
      [|intros fs added Hin HA; eapply adds_labels; [|eapply Permutation_in; [apply HOrd|exact Hin]|exact HA];
        intros from x Hx; eapply Permutation_in; [apply HI|exact Hx]|constructor].
    destruct FM as (new & EN & IM).
    cbn [stItems app] in EN. rewrite EN. exists new. split; [exact IM|]. apply (sorted_items (get_label labels) (pure_label_href labels)).
    intros si Hs. destruct (image_In_l _ _ _ _ IM Hs) as (fs & _ & packs & _ & _ & R).
    apply item_href in R. destruct R as [-> ->]. reflexivity. }
  destruct (G _ _ _ _ HO E) as (new & IM & ->). destruct (G _ _ _ _ HO' E') as (new' & IM' & ->).
  eapply two_orders; [apply (c_map_is_map role lb (lArcs k))|apply HO|apply HO'|exact IM|exact IM'|..].
  - intros fs si (ps & _ & _ & R). now apply item_href in R.
  - intros fs si (ps & _ & _ & R). now apply item_href in R.
  - intro fs. tauto.
  - intros fs si si' (ps & N & FP & R) (ps' & N' & FP' & R').
    split; [apply erase_same; eapply item_erase; eauto|]. split.
    + eapply item_cells; [|exact R|exact R']. intros e f x y. apply render_agree.
    + eapply item_cells; [|exact R|exact R']. intros e f x y. apply render_langs_same.
      destruct ps as [|p0 rest]; [congruence|].
      inversion FP as [|? ? (h0 & E0 & L0) _]; subst p0.
      assert (W : forall qs, Forall (fun p => exists h, p = get_label labels h /\ labelled_href role lb k insts h) qs ->
                Forall (fun p => is_pack p /\ alike p (get_label labels h0)) qs).
      { intros qs HF. eapply Forall_impl; [|exact HF]. intros p (h & -> & L). split; [apply get_label_is_pack|]. apply AL; auto. }
      assert (LD : forall z lang, In lang (snd (ge_destruct (genv (fst fs)) z)) <-> In lang (snd z)).
      { intros z lang. split; apply Permutation_in; [|apply Permutation_sym]; apply HD. }
      intro lang. rewrite !LD, (alike_langs _ _ N (W _ FP)), (alike_langs _ _ N' (W _ FP')). reflexivity.
Qed.
Print Assumptions C86_alike_partial.
(** without label linkbases the labels of concepts are alike *)
Example C86_alike_example :
  shown_link calc_role [sample_calc] sample_calc (hd (Link "" [] []) (lbLinks sample_calc)) /\
  forall h h', labelled_href calc_role sample_calc (hd (Link "" [] []) (lbLinks sample_calc)) [calc_instance] h ->
    labelled_href calc_role sample_calc (hd (Link "" [] []) (lbLinks sample_calc)) [calc_instance] h' ->
    alike (get_label [] h) (get_label [] h').
Proof.
  split.
  - apply first_link_shown. reflexivity.
  - assert (K : forall h, labelled_href calc_role sample_calc (hd (Link "" [] []) (lbLinks sample_calc)) [calc_instance] h ->
        exists b, get_label [] h = [("Default", [("Unlabelled", h); ("Truncated", b)])]).
    { intros h [(a & Ha & L)|(i & c & d & Hi & Hc & Hd & HH)].
      - assert (EH : h = map_locator_to_href calc_role sample_calc (caFrom a) \/ h = map_locator_to_href calc_role sample_calc (caTo a)).
        { destruct L as [L|L]; [left|right]; eapply locates_unique; [exact L|apply locates_fun|exact L|apply locates_fun]. }
        cbn in Ha. repeat destruct Ha as [<-|Ha]; try contradiction; destruct EH as [-> | ->]; vm_compute; eauto.
      - cbn in Hi. destruct Hi as [<-|[]]. cbn in Hc. destruct Hc as [<-|[]]. cbn in Hd.
        assert (d = no_dims) as -> by (destruct Hd; assumption).
        destruct HH as [(e & [] & _)|(t & [] & _)]. }
    intros h h' H H'. destruct (K h H) as [b ->], (K h' H') as [b' ->]. split.
    + intro r. unfold has_role. cbn. tauto.
    + intros r l. unfold holds. cbn.
      split; intros (t & m & [[= <- <-]|[]] & [[= <- <-]|[[= <- <-]|[]]]); do 2 eexists; (split; [left; reflexivity|]); cbn; auto.
Qed.
