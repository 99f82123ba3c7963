(** * GridProps: C14-C23, C31, C32, C77 *)
From Verif Require Import GoBase GoSpec GoFacts AttrModel SchemaModel LinkbaseModel InstanceModel
  LabelModel LabelSpec LabelProofs PeriodModel FactModel GridModel GridSpec GridProofs.
Local Open Scope string_scope.

(** ** A sample: a tree builder, a taxonomy and two instances *)
Fixpoint grow (fuel : nat) (arcs : list arc) (l : string) (o : f64) : rarc :=
  RArc l o (match fuel with
            | 0 => []
            | S n => map (fun a => grow n arcs (arTo a) (arOrder a))
                         (filter (fun a => String.eqb (arFrom a) l) arcs)
            end).
Definition sample_tree (arcs : list arc) (role : string) : rarc :=
  let mine := filter (fun a => String.eqb (arArcrole a) role) arcs in
  RArc "" (S754_zero false)
    (map (fun s => grow (List.length mine) mine s (S754_zero false))
         (uniq String.eqb (map arFrom
            (filter (fun a => negb (existsb (fun b => String.eqb (arTo b) (arFrom a)) mine)) mine)))).
Definition sample_label (h : string) : list (string * list (string * string)) := [("Default", [("Unlabelled", h)])].
Definition sample_concept (h : string) : option concept :=
  if existsb (String.eqb h) ["t#A"; "t#B"]
  then Some (Concept (XName "t" h) h (XName "x" "stringItemType") (XName "" "") false "" "" false "")
  else if String.eqb h "t#Abstract"
  then Some (Concept (XName "t" h) h (XName "x" "stringItemType") (XName "" "") false "" "" true "")
  else None.
Definition in_document_order : context -> typed_member -> list (string * string) := fun _ t => tmMap t.
Definition plain_context (id start end_ : string) (sg : dim_context) : context :=
  Context id "http://cik" "0001" sg "" start end_ (DimContext [] []).
Definition no_dims := DimContext [] [].
Definition by_product (m : string) := DimContext [ExplicitMember "t#Product" "t:Product" m m] [].
Definition sample_facts : list fact :=
  [Fact "t#B" "f1" "c2" "" 0 false "b2"; Fact "t#A" "f2" "c1" "" 0 false "a1"; Fact "t#A" "f3" "c2" "" 0 false "a2";
   Fact "t#Other" "f4" "c3" "" 0 false "o"; Fact "t#A" "f5" "c1" "" 0 false "again"].
Definition sample_instance : instance :=
  Instance "i.xml" [plain_context "c1" "2020-01-01" "2020-12-31" (by_product "t#Cars");
                    plain_context "c2" "2019-01-01" "2019-12-31" no_dims;
                    plain_context "c3" "2018-01-01" "2018-12-31" no_dims] [] [] sample_facts.
Definition sample_columns := get_relevant_contexts sample_tree sample_label sample_concept in_document_order
  "http://cik/0001" [sample_instance] ["t#Abstract"; "t#A"; "t#B"; "t#Missing"].

(** C14 *)
Theorem C14_every_fact_has_its_column :
  forall tree lbl concept_of typed_order subject insts hrefs cols seg scen packs,
    (forall c t, Permutation (typed_order c t) (tmMap t)) ->
    get_relevant_contexts tree lbl concept_of typed_order subject insts hrefs = Ok (cols, seg, scen, packs) ->
    forall i c, In i insts -> reported_in concept_of i subject hrefs c ->
      exists r, In r cols /\ column_for lbl c r.
Proof.
  intros tree lbl concept_of typed_order subject insts hrefs cols seg scen packs TO E i c Hi R.
  destruct (relevant_spec tree lbl concept_of typed_order subject insts hrefs)
    as [[_ P]|[_ (css & F & G)]]; [congruence|].
  rewrite G in E. injection E as <- _ _ _.
  destruct (Forall2_In_l _ _ _ _ F Hi) as (cs & Hcs & _ & H). apply H in R.
  exists (fst (mk_col tree lbl typed_order c)). split; [|now apply mk_col_column].
  unfold sort_contexts. rewrite isort_in. apply in_map_iff. exists c. split; auto. apply in_concat. eauto.
Qed.
Print Assumptions C14_every_fact_has_its_column.

(** C15 *)
Theorem C15_columns_are_reported_contexts :
  forall tree lbl concept_of typed_order subject insts hrefs cols seg scen packs,
    (forall c t, Permutation (typed_order c t) (tmMap t)) ->
    get_relevant_contexts tree lbl concept_of typed_order subject insts hrefs = Ok (cols, seg, scen, packs) ->
    exists groups,
      Permutation (concat groups) cols /\
      Forall2 (fun i g => NoDup (map rcContextRef g) /\
                 forall r, In r g -> exists c, reported_in concept_of i subject hrefs c /\ column_for lbl c r)
              insts groups.
Proof.
  intros tree lbl concept_of typed_order subject insts hrefs cols seg scen packs TO E.
  destruct (relevant_spec tree lbl concept_of typed_order subject insts hrefs)
    as [[_ P]|[_ (css & F & G)]]; [congruence|].
  rewrite G in E. injection E as <- _ _ _.
  exists (map (map (fun c => fst (mk_col tree lbl typed_order c))) css). split.
  - rewrite <- concat_map. apply isort_perm.
  - clear G. induction F as [|i cs insts css [ND H] F IH]; cbn [map]; constructor; auto. split.
    + rewrite map_map. exact ND.
    + intros r Hr. apply in_map_iff in Hr. destruct Hr as (c & <- & Hc). exists c. split; [now apply H|].
      now apply mk_col_column.
Qed.
Print Assumptions C15_columns_are_reported_contexts.
Example C14_C15_example :
  exists a b packs,
    sample_columns = Ok ([a; b], [], [], packs) /\
    rcContextRef a = "c2" /\ rcPeriod a = [("Unlabelled", "2019-01-01/2019-12-31")] /\ rcMembers a = [] /\
    rcContextRef b = "c1" /\ map (fun m => lbHref (rmDimension m)) (rcMembers b) = ["t#Product"].
Proof. vm_compute. repeat eexists. Qed.
Example C14_C15_reported :
  reported_in sample_concept sample_instance "http://cik/0001" ["t#Abstract"; "t#A"; "t#B"; "t#Missing"]
    (plain_context "c1" "2020-01-01" "2020-12-31" (by_product "t#Cars")).
Proof.
  exists (Fact "t#A" "f2" "c1" "" 0 false "a1"). split; [simpl; auto|]. split; [simpl; auto|].
  split; [eexists; split; reflexivity|]. split; [|reflexivity].
  exists []; eexists. split; [reflexivity|]. split; [reflexivity|]. intros y [].
Qed.

(** C16 *)
Theorem C16_columns_sorted :
  forall tree lbl concept_of typed_order subject insts hrefs cols seg scen packs,
    get_relevant_contexts tree lbl concept_of typed_order subject insts hrefs = Ok (cols, seg, scen, packs) ->
    StronglySorted column_le cols.
Proof.
  intros tree lbl concept_of typed_order subject insts hrefs cols seg scen packs E.
  destruct (relevant_spec tree lbl concept_of typed_order subject insts hrefs)
    as [[_ P]|[_ (css & F & G)]]; [congruence|].
  rewrite G in E. injection E as <- _ _ _. apply sort_contexts_spec, (columns_one_kind tree lbl typed_order).
Qed.
Print Assumptions C16_columns_sorted.
Theorem C16_stable :
  forall l, (forall c m, In c l -> In m (rcMembers c) -> one_kind m) ->
    Permutation l (sort_contexts l) /\
    StronglySorted column_le (sort_contexts l) /\
    forall k, filter (fun c => if column_key_dec (column_key c) k then true else false) (sort_contexts l) =
              filter (fun c => if column_key_dec (column_key c) k then true else false) l.
Proof.
  intros l H. apply sort_contexts_spec. apply Forall_forall. intros c Hc. apply Forall_forall.
  intros m Hm. eauto.
Qed.
Print Assumptions C16_stable.
(** [column_le] is a total preorder, so the statement is not vacuous; its equivalence classes
    are the keys *)
Theorem C16_order_is_total :
  (forall a b, column_le a b \/ column_le b a) /\
  (forall a b c, column_le a b -> column_le b c -> column_le a c) /\
  (forall a b, column_le a b /\ column_le b a <-> column_key a = column_key b).
Proof.
  split; [exact column_le_total|]. split; [exact column_le_trans|].
  intros a b. split.
  - intros [H K]. now apply column_le_key.
  - intro H. split; apply key_column_le; auto.
Qed.
Print Assumptions C16_order_is_total.
Example C16_example :
  let rc id p ms := RelevantContext id [("Unlabelled", p)] ms in
  let ex h := RelevantMember (Labelled "t#Product" []) (Some (Labelled h [])) "" None true in
  let l := [rc "1" "2020" [ex "t#Trucks"]; rc "2" "2020" []; rc "3" "2019" [ex "t#Cars"]; rc "4" "2020" [ex "t#Cars"]; rc "5" "2020" []] in
  (forall c m, In c l -> In m (rcMembers c) -> one_kind m) /\
  map rcContextRef (sort_contexts l) = ["3"; "2"; "5"; "4"; "1"].
Proof.
  cbv zeta. split; [|vm_compute; reflexivity]. intros c m Hc Hm. simpl in Hc.
  repeat destruct Hc as [<-|Hc]; try contradiction; simpl in Hm; try contradiction;
    destruct Hm as [<-|[]]; right; eexists; split; reflexivity.
Qed.

(** C17 *)
Theorem C17_factual_quadrant :
  forall tree env id_order id_order_final hrefs cols langs rows grid notes,
    get_factual_quadrant tree env id_order id_order_final hrefs cols langs = Ok (rows, grid, notes) ->
    (hrefs = [] \/ cols = [] -> rows = [] /\ grid = [] /\ notes = []) /\
    (hrefs <> [] -> cols <> [] ->
       shape (length hrefs) (length cols) rows /\ shape (length hrefs) (length cols) grid).
Proof.
  intros tree env io iof hrefs cols langs rows grid notes E. split.
  - intros [-> | ->].
    + cbn in E. injection E as <- <- <-. auto.
    + unfold get_factual_quadrant in E. destruct hrefs; injection E as <- <- <-; auto.
  - intros NH NC. eapply quadrant_shape; eauto.
Qed.
Print Assumptions C17_factual_quadrant.
Theorem C17_member_grid :
  forall member_order cols seg scen grid void,
    get_member_grid member_order cols seg scen = Ok (grid, void) ->
    shape (length void) (length cols) grid /\ (cols = [] -> void = []).
Proof.
  intros mo cols seg scen grid void. unfold get_member_grid. destruct cols as [|c cs].
  - intros [= <- <-]. split; auto. split; auto. intros ? [].
  - destruct (get_void_quadrant _ _ _ _) as [v|?|]; cbn [bind]; try discriminate.
    intros [= <- <-]. split; [|discriminate]. split; [now rewrite map_length|].
    intros r Hr. apply in_map_iff in Hr. destruct Hr as (x & <- & _). apply (map_length (member_cell_at x) (c :: cs)).
Qed.
Print Assumptions C17_member_grid.

(** C18 *)
Theorem C18_cell_is_first_fact :
  forall tree env id_order id_order_final hrefs cols langs rows grid notes insts i j h c,
    (forall i j, Permutation (ce_facts (env i j)) insts) ->
    get_factual_quadrant tree env id_order id_order_final hrefs cols langs = Ok (rows, grid, notes) ->
    nth_error hrefs i = Some h -> nth_error cols j = Some c ->
    exists x order, cell rows i j x /\ Permutation order insts /\
      ((exists f, first_such (is_fact_of h (rcContextRef c)) (flat_map iFacts order) f /\
                  render (ce_render (env i j)) (Some f) langs = Ok x) \/
       ((forall k f, In k insts -> In f (iFacts k) -> ~ is_fact_of h (rcContextRef c) f) /\
        x = [("Unlabelled", FactExpression "" "" "" "")])).
Proof.
  intros tree env io iof hrefs cols langs rows grid notes insts i j h c HP E Hh Hc.
  destruct (quadrant_cell _ _ _ _ _ _ _ _ _ _ _ _ _ _ E Hh Hc) as [(x & Hx & R) _].
  exists x, (ce_facts (env i j)). split; auto. split; auto.
  assert (EQ : forall y, (String.eqb (fHref y) h && String.eqb (fContextRef y) (rcContextRef c))%bool = true <->
                         is_fact_of h (rcContextRef c) y).
  { intro y. unfold is_fact_of. rewrite andb_true_iff, !String.eqb_eq. reflexivity. }
  unfold fact_at, find_fact in R. destruct (find _ _) as [f|] eqn:F.
  - left. exists f. split; auto. apply (find_first_such _ _ _ _ EQ) in F. exact F.
  - right. split; [|cbn in R; injection R as <-; reflexivity].
    intros k f Hk Hf. apply (proj1 (find_none_iff _ _ _ EQ) F). apply in_flat_map. exists k. split; auto.
    eapply Permutation_in; [symmetry; apply HP|exact Hk].
Qed.
Print Assumptions C18_cell_is_first_fact.
(** with one instance the order of facts is the document's *)
Theorem C18_one_instance :
  forall tree env id_order id_order_final hrefs cols langs rows grid notes inst i j h c,
    (forall i j, Permutation (ce_facts (env i j)) [inst]) ->
    get_factual_quadrant tree env id_order id_order_final hrefs cols langs = Ok (rows, grid, notes) ->
    nth_error hrefs i = Some h -> nth_error cols j = Some c ->
    exists x, cell rows i j x /\
      ((exists f, first_such (is_fact_of h (rcContextRef c)) (iFacts inst) f /\
                  render (ce_render (env i j)) (Some f) langs = Ok x) \/
       ((forall f, In f (iFacts inst) -> ~ is_fact_of h (rcContextRef c) f) /\
        x = [("Unlabelled", FactExpression "" "" "" "")])).
Proof.
  intros tree env io iof hrefs cols langs rows grid notes inst i j h c HP E Hh Hc.
  destruct (C18_cell_is_first_fact _ _ _ _ _ _ _ _ _ _ _ _ _ _ _ HP E Hh Hc) as (x & o & Hx & Ho & H).
  assert (o = [inst]) as -> by (symmetry in Ho; now apply Permutation_length_1_inv in Ho).
  exists x. split; auto. cbn [flat_map] in H. rewrite app_nil_r in H.
  destruct H as [H|[H H']]; [left; exact H|right]. split; auto. intros f Hf. eapply H; eauto. now left.
Qed.
Print Assumptions C18_one_instance.

Definition sample_renv : renv :=
  REnv sample_concept (fun _ => (None, None)) (fun _ => []) (fun _ _ _ => None) (fun _ => None).
Definition sample_env (insts : list instance) : nat -> nat -> cell_env :=
  fun _ _ => CellEnv insts insts insts sample_renv.
Definition as_inserted : list (string * footnote) -> list (string * footnote) := fun l => l.
Definition col (id : string) := RelevantContext id [("Unlabelled", "2020")] [].
Example C17_C18_example :
  exists x y z w grid, get_factual_quadrant sample_tree (sample_env [sample_instance]) (fun _ _ => as_inserted) as_inserted
    ["t#A"; "t#B"] [col "c1"; col "c2"] ["Unlabelled"] = Ok ([[x; y]; [z; w]], grid, []) /\
  map (fun m => map (fun kv => feCore (snd kv)) m) [x; y; z; w] = [["a1"]; ["a2"]; [""]; ["b2"]].
Proof. vm_compute. repeat eexists. Qed.

(** C19 *)
(** the claim: every number of a cell is the position of a footnote of the cell's fact *)
Definition numbers_point (tree : list arc -> string -> rarc) (env : nat -> nat -> cell_env)
  (hrefs : list string) (cols : list relevant_context) (grid : list (list (list nat))) (notes : list string) : Prop :=
  forall i j h c ns k,
    nth_error hrefs i = Some h -> nth_error cols j = Some c -> cell grid i j ns -> In k ns ->
    exists f, In f (get_footnotes tree (ce_notes1 (env i j)) (ce_notes2 (env i j))
                                  (find_fact (ce_facts (env i j)) h (rcContextRef c))) /\
              1 <= k /\ nth_error notes (k - 1) = Some (fnHtml f).
(** two footnotes of displayed facts with one id are the same footnote *)
Definition ids_identify (tree : list arc -> string -> rarc) (env : nat -> nat -> cell_env) : Prop :=
  forall i j i' j' h h' r r' f g,
    In f (get_footnotes tree (ce_notes1 (env i j)) (ce_notes2 (env i j)) (find_fact (ce_facts (env i j)) h r)) ->
    In g (get_footnotes tree (ce_notes1 (env i' j')) (ce_notes2 (env i' j')) (find_fact (ce_facts (env i' j')) h' r')) ->
    fnID f = fnID g -> f = g.
Definition note (id : string) := Footnote id ("text of " ++ id) "en" id.
Definition noted_instance : instance :=
  Instance "i.xml" [] [] [FootnoteLink "" [note "n1"; note "n2"] [Loc "#f1" "l1"; Loc "#f2" "l2"]
      [FnArc "l1" "n1" FactFootnoteArcrole; FnArc "l2" "n2" FactFootnoteArcrole]]
    [Fact "t#A" "f1" "c1" "" 0 false "a1"; Fact "t#B" "f2" "c1" "" 0 false "b1"].
Definition noted_quadrant io iof :=
  get_factual_quadrant sample_tree (sample_env [noted_instance]) io iof ["t#A"; "t#B"] [col "c1"] ["Unlabelled"].

Theorem C19_refuted :
  ~ (forall tree env id_order id_order_final hrefs cols langs rows grid notes,
       (forall i j m, Permutation (id_order i j m) m) -> (forall m, Permutation (id_order_final m) m) ->
       ids_identify tree env ->
       get_factual_quadrant tree env id_order id_order_final hrefs cols langs = Ok (rows, grid, notes) ->
       numbers_point tree env hrefs cols grid notes).
Proof.
  intro H.
  assert (E : exists rows, noted_quadrant (fun _ _ => as_inserted) (@rev _) =
    Ok (rows, [[[1]]; [[2]]], ["text of n2"; "text of n1"])) by (vm_compute; eexists; reflexivity).
  destruct E as [rows E].
  assert (K : ids_identify sample_tree (sample_env [noted_instance])).
  { intros i j i' j' h h' r r' f g Hf Hg EQ. apply get_footnotes_In in Hf, Hg.
    cbn in Hf, Hg. destruct Hf as [<-|[<-|[]]], Hg as [<-|[<-|[]]]; try reflexivity; discriminate. }
  specialize (H _ _ _ _ _ _ _ _ _ _ (fun i j m => Permutation_refl m) (fun m => Permutation_sym (Permutation_rev m)) K E).
  destruct (H 0 0 "t#A" (col "c1") [1] 1 eq_refl eq_refl) as (f & Hf & _ & N).
  - eexists. split; reflexivity.
  - now left.
  - vm_compute in Hf. destruct Hf as [<-|[]]. vm_compute in N. discriminate.
Qed.
Print Assumptions C19_refuted.
(** If the footnotes are visited in the same order every time, the numbers are right: each
    points at a footnote of the cell's fact, and every footnote of the fact is numbered. *)
Theorem C19_same_order_partial :
  forall tree env order hrefs cols langs rows grid notes,
    (forall m, Permutation (order m) m) -> ids_identify tree env ->
    get_factual_quadrant tree env (fun _ _ => order) order hrefs cols langs = Ok (rows, grid, notes) ->
    numbers_point tree env hrefs cols grid notes /\
    forall i j h c ns f,
      nth_error hrefs i = Some h -> nth_error cols j = Some c -> cell grid i j ns ->
      In f (get_footnotes tree (ce_notes1 (env i j)) (ce_notes2 (env i j))
                          (find_fact (ce_facts (env i j)) h (rcContextRef c))) ->
      exists k, In k ns /\ 1 <= k /\ nth_error notes (k - 1) = Some (fnHtml f).
Proof.
  intros tree env order hrefs cols langs rows grid notes HO HI E.
  assert (IM := id_map_spec tree env hrefs cols). destruct IM as (IM & IS & IC).
  assert (KEY : forall i j h c, nth_error hrefs i = Some h -> nth_error cols j = Some c ->
    cell grid i j (cell_numbers (order (id_map tree env hrefs cols)) (notes_at tree env i j h (rcContextRef c))) /\
    notes = map (fun kf => fnHtml (snd kf)) (order (id_map tree env hrefs cols))).
  { intros i j h c Hh Hc. split.
    - apply (quadrant_cell _ _ _ _ _ _ _ _ _ _ _ _ _ _ E Hh Hc).
    - assert (NH : hrefs <> []) by (intros ->; now destruct i).
      assert (NC : cols <> []) by (intros ->; now destruct j).
      apply (quadrant_inv _ _ _ _ _ _ _ _ _ _ NH NC E). }
  assert (CELL : forall i j (x y : list nat), cell grid i j x -> cell grid i j y -> x = y).
  { intros i j x y (r & Hr & Hx) (r' & Hr' & Hy). congruence. }
  split.
  - intros i j h c ns k Hh Hc Hns Hk. destruct (KEY i j h c Hh Hc) as [K1 ->].
    rewrite (CELL _ _ _ _ Hns K1) in Hk. apply cell_numbers_In in Hk.
    destruct Hk as (L & id & g & f & HN & Hf & Ef). exists f. split; [exact Hf|]. split; auto.
    erewrite map_nth_error; [|exact HN]. cbn [snd]. f_equal. f_equal. symmetry.
    assert (Hg : In (id, g) (id_map tree env hrefs cols)).
    { eapply Permutation_in; [apply HO|]. eapply nth_error_In; eauto. }
    destruct (IS _ _ Hg) as (Eg & i' & j' & h' & c' & _ & _ & Hg').
    eapply HI; [exact Hf|exact Hg'|congruence].
  - intros i j h c ns f Hh Hc Hns Hf. destruct (KEY i j h c Hh Hc) as [K1 ->].
    rewrite (CELL _ _ _ _ Hns K1).
    assert (SH : shown_at tree env hrefs cols i j f) by (exists h, c; auto).
    assert (HK := IC _ _ _ SH). apply in_map_iff in HK. destruct HK as ([id g] & Eid & Hg). cbn in Eid. subst id.
    destruct (IS _ _ Hg) as (_ & i' & j' & h' & c' & _ & _ & Hg').
    assert (fnID f = fnID g).
    { now destruct (IS _ _ Hg). }
    assert (f = g) as <- by (eapply HI; [exact Hf|exact Hg'|auto]).
    assert (Ho : In (fnID f, f) (order (id_map tree env hrefs cols))).
    { eapply Permutation_in; [symmetry; apply HO|exact Hg]. }
    apply In_nth_error in Ho. destruct Ho as [n Hn]. exists (S n). split.
    + apply cell_numbers_In. split; [lia|]. exists (fnID f), f, f. split; [|split; [exact Hf|reflexivity]].
      replace (S n - 1) with n by lia. exact Hn.
    + split; [lia|]. replace (S n - 1) with n by lia. erewrite map_nth_error; [|exact Hn]. reflexivity.
Qed.
Print Assumptions C19_same_order_partial.
(** If all the displayed facts have one and the same footnote (or none), the numbers are right
    in every iteration order. *)
Theorem C19_one_footnote_partial :
  forall tree env id_order id_order_final hrefs cols langs rows grid notes,
    (forall i j m, Permutation (id_order i j m) m) -> (forall m, Permutation (id_order_final m) m) ->
    (forall i j i' j' h h' r r' f g,
       In f (get_footnotes tree (ce_notes1 (env i j)) (ce_notes2 (env i j)) (find_fact (ce_facts (env i j)) h r)) ->
       In g (get_footnotes tree (ce_notes1 (env i' j')) (ce_notes2 (env i' j')) (find_fact (ce_facts (env i' j')) h' r')) ->
       f = g) ->
    get_factual_quadrant tree env id_order id_order_final hrefs cols langs = Ok (rows, grid, notes) ->
    numbers_point tree env hrefs cols grid notes.
Proof.
  intros tree env io iof hrefs cols langs rows grid notes H1 H2 HI E.
  intros i j h c ns k Hh Hc (row & Hr & Hns) Hk.
  destruct (quadrant_cell _ _ _ _ _ _ _ _ _ _ _ _ _ _ E Hh Hc) as [_ (row' & Hr' & Hns')].
  assert (row' = row) by congruence. subst row'. rewrite Hns in Hns'. injection Hns' as ->.
  apply cell_numbers_In in Hk. destruct Hk as (L & id & g & f & HN & Hf & Ef).
  destruct (id_map_spec tree env hrefs cols) as (IM & IS & IC).
  assert (NH : hrefs <> []) by (intros ->; now destruct i).
  assert (NC : cols <> []) by (intros ->; now destruct j).
  destruct (quadrant_inv _ _ _ _ _ _ _ _ _ _ NH NC E) as (_ & _ & ->).
  assert (ONE : id_map tree env hrefs cols = [(fnID f, f)]).
  { assert (ALL : forall k x, In (k, x) (id_map tree env hrefs cols) -> k = fnID f /\ x = f).
    { intros k0 x Hx. destruct (IS _ _ Hx) as (-> & i' & j' & h' & c' & _ & _ & Hg').
      assert (x = f) as -> by (eapply HI; [exact Hg'|exact Hf]). auto. }
    assert (NE : id_map tree env hrefs cols <> []).
    { intro N. assert (H := IC i j f (ex_intro _ h (ex_intro _ c (conj Hh (conj Hc Hf))))). now rewrite N in H. }
    unfold is_map in IM. destruct (id_map tree env hrefs cols) as [|[k1 x1] [|[k2 x2] t]]; [congruence| |].
    - destruct (ALL k1 x1) as [-> ->]; [now left|reflexivity].
    - exfalso. destruct (ALL k1 x1) as [-> _]; [now left|]. destruct (ALL k2 x2) as [-> _]; [right; now left|].
      inversion IM as [|? ? N _]. apply N. now left. }
  assert (E1 : io i j (id_map tree env hrefs cols) = [(fnID f, f)]).
  { assert (P := H1 i j (id_map tree env hrefs cols)). rewrite ONE in P |- *. symmetry in P.
    now apply Permutation_length_1_inv in P. }
  assert (E2 : iof (id_map tree env hrefs cols) = [(fnID f, f)]).
  { assert (P := H2 (id_map tree env hrefs cols)). rewrite ONE in P |- *. symmetry in P.
    now apply Permutation_length_1_inv in P. }
  rewrite E1 in HN. rewrite E2. exists f. split; [exact Hf|]. split; auto.
  destruct (k - 1) as [|n]; [reflexivity|]. destruct n; discriminate.
Qed.
Print Assumptions C19_one_footnote_partial.
Example C19_example :
  exists rows, noted_quadrant (fun _ _ => @rev _) (@rev _) = Ok (rows, [[[2]]; [[1]]], ["text of n2"; "text of n1"]).
Proof. vm_compute. eexists. reflexivity. Qed.

(** C20 *)
Theorem C20_footnote_list :
  forall tree env id_order id_order_final hrefs cols langs rows grid notes,
    (forall i j m, Permutation (id_order i j m) m) -> (forall m, Permutation (id_order_final m) m) ->
    get_factual_quadrant tree env id_order id_order_final hrefs cols langs = Ok (rows, grid, notes) ->
    let shown f := exists i j h c, nth_error hrefs i = Some h /\ nth_error cols j = Some c /\
        In f (get_footnotes tree (ce_notes1 (env i j)) (ce_notes2 (env i j))
                            (find_fact (ce_facts (env i j)) h (rcContextRef c))) in
    (exists fs, notes = map fnHtml fs /\ NoDup (map fnID fs) /\
       (forall f, In f fs -> shown f) /\ (forall f, shown f -> In (fnID f) (map fnID fs))) /\
    (forall i j ns k, cell grid i j ns -> In k ns -> 1 <= k <= length notes).
Proof.
  intros tree env io iof hrefs cols langs rows grid notes H1 H2 E shown.
  destruct (id_map_spec tree env hrefs cols) as (IM & IS & IC).
  assert (EMPTY : hrefs = [] \/ cols = [] -> grid = [] /\ notes = []).
  { intros [-> | ->]; cbn in E.
    - injection E as <- <- <-. auto.
    - unfold get_factual_quadrant in E. destruct hrefs; injection E as <- <- <-; auto. }
  assert (DEC : (hrefs = [] \/ cols = []) \/ (hrefs <> [] /\ cols <> [])).
  { destruct hrefs, cols; auto. right. split; discriminate. }
  destruct DEC as [DEC|[NH NC]].
  - destruct (EMPTY DEC) as [-> ->]. split.
    + exists []. split; auto. split; [constructor|]. split; [intros ? []|].
      intros f (i & j & h & c & Hh & Hc & _). destruct DEC as [-> | ->]; [now destruct i|now destruct j].
    + intros i j ns k (r & Hr & _) _. now destruct i.
  - destruct (quadrant_inv _ _ _ _ _ _ _ _ _ _ NH NC E) as (_ & _ & EN). split.
    + exists (map snd (iof (id_map tree env hrefs cols))). split; [now rewrite map_map|].
      assert (EK : map fnID (map snd (iof (id_map tree env hrefs cols))) = map fst (iof (id_map tree env hrefs cols))).
      { rewrite map_map. apply map_ext_in. intros [k f] Hk. cbn.
        symmetry. apply IS. eapply Permutation_in; [apply H2|exact Hk]. }
      rewrite EK. split; [|split].
      * eapply Permutation_NoDup; [|exact IM]. apply Permutation_map. symmetry. apply H2.
      * intros f Hf. apply in_map_iff in Hf. destruct Hf as ([k g] & <- & Hk).
        assert (Hk' : In (k, g) (id_map tree env hrefs cols)) by (eapply Permutation_in; [apply H2|exact Hk]).
        destruct (IS _ _ Hk') as (_ & i & j & h & c & A & B & C). exists i, j, h, c. auto.
      * intros f (i & j & h & c & A & B & C).
        assert (HK : In (fnID f) (map fst (id_map tree env hrefs cols))) by (apply (IC i j); exists h, c; auto).
        eapply Permutation_in; [|exact HK]. apply Permutation_map. symmetry. apply H2.
    + intros i j ns k Hns Hk.
      destruct (quadrant_shape _ _ _ _ _ _ _ _ _ _ NH NC E) as [_ SG].
      destruct (cell_shape _ _ _ _ _ _ SG Hns) as [Li Lj].
      apply nth_error_Some in Li, Lj.
      destruct (nth_error hrefs i) as [h|] eqn:Hh; [|congruence].
      destruct (nth_error cols j) as [c|] eqn:Hc; [|congruence].
      destruct (quadrant_cell _ _ _ _ _ _ _ _ _ _ _ _ _ _ E Hh Hc) as [_ (row' & Hr' & Hns')].
      destruct Hns as (row & Hr & Hns). assert (row' = row) by congruence. subst row'.
      rewrite Hns in Hns'. injection Hns' as ->. apply cell_numbers_In in Hk.
      destruct Hk as (L & id & g & f & HN & _). split; auto.
      assert (k - 1 < length (io i j (id_map tree env hrefs cols))) by (apply nth_error_Some; congruence).
      rewrite EN, map_length, (Permutation_length (H2 _)), <- (Permutation_length (H1 i j _)). lia.
Qed.
Print Assumptions C20_footnote_list.
Example C20_example :
  exists rows, noted_quadrant (fun _ _ => as_inserted) as_inserted = Ok (rows, [[[1]]; [[2]]], ["text of n1"; "text of n2"]).
Proof. vm_compute. eexists. reflexivity. Qed.

(** C21 *)
Theorem C21_refuted :
  exists tree lbl concept_of typed_order subject insts hrefs,
    (forall c t, Permutation (typed_order c t) (tmMap t)) /\
    get_relevant_contexts tree lbl concept_of typed_order subject insts hrefs = Panic.
Proof.
  exists sample_tree, sample_label, sample_concept, in_document_order, "http://cik/0001",
    [Instance "i.xml" [] [] [] [Fact "t#A" "f1" "c9" "" 0 false "x"]], ["t#A"].
  split; [intros; apply Permutation_refl|reflexivity].
Qed.
Print Assumptions C21_refuted.
(** It crashes exactly if there is such a fact on a displayed, non-abstract concept; it never
    reports an error. *)
Theorem C21_crash_iff_dangling_partial :
  forall tree lbl concept_of typed_order subject insts hrefs,
    (get_relevant_contexts tree lbl concept_of typed_order subject insts hrefs = Panic <->
     exists i, In i insts /\ dangling concept_of i hrefs) /\
    ((forall i, In i insts -> ~ dangling concept_of i hrefs) ->
     exists r, get_relevant_contexts tree lbl concept_of typed_order subject insts hrefs = Ok r).
Proof.
  intros tree lbl concept_of typed_order subject insts hrefs.
  destruct (relevant_spec tree lbl concept_of typed_order subject insts hrefs)
    as [[D P]|[N (css & F & G)]].
  - split; [tauto|]. intro N. destruct D as (i & Hi & D). exfalso. eapply N; eauto.
  - split; [|eauto]. rewrite G. split; [discriminate|]. intros (i & Hi & D). exfalso. eapply N; eauto.
Qed.
Print Assumptions C21_crash_iff_dangling_partial.
Example C21_example :
  (forall i, In i [sample_instance] -> ~ dangling sample_concept i ["t#A"; "t#B"]).
Proof.
  intros i Hi D.
  destruct (C21_crash_iff_dangling_partial sample_tree sample_label sample_concept in_document_order
              "http://cik/0001" [sample_instance] ["t#A"; "t#B"]) as [[_ H] _].
  specialize (H (ex_intro _ i (conj Hi D))). vm_compute in H. discriminate.
Qed.

(** C22 *)
Theorem C22_abstract_concepts_add_nothing :
  forall tree lbl concept_of typed_order subject insts l1 h l2,
    ~ reportable concept_of h ->
    get_relevant_contexts tree lbl concept_of typed_order subject insts (l1 ++ h :: l2) =
    get_relevant_contexts tree lbl concept_of typed_order subject insts (l1 ++ l2).
Proof.
  intros tree lbl concept_of typed_order subject insts l1 h l2 N.
  enough (E : factual_hrefs concept_of (l1 ++ h :: l2) = factual_hrefs concept_of (l1 ++ l2))
    by (unfold get_relevant_contexts; now rewrite E).
  unfold factual_hrefs. rewrite !filter_app. cbn [filter]. f_equal.
  destruct (concept_of h) as [c|] eqn:E; auto. destruct (cAbstract c) eqn:A; cbn; auto.
  exfalso. apply N. exists c. auto.
Qed.
Print Assumptions C22_abstract_concepts_add_nothing.
Theorem C22_only_abstract_concepts :
  forall tree lbl concept_of typed_order subject insts hrefs,
    (forall h, In h hrefs -> ~ reportable concept_of h) ->
    get_relevant_contexts tree lbl concept_of typed_order subject insts hrefs = Ok ([], [], [], []).
Proof.
  intros tree lbl concept_of typed_order subject insts hrefs N.
  enough (E : factual_hrefs concept_of hrefs = []) by (unfold get_relevant_contexts; now rewrite E).
  destruct (factual_hrefs concept_of hrefs) as [|x t] eqn:E; auto. exfalso.
  assert (H : In x (factual_hrefs concept_of hrefs)) by (rewrite E; now left).
  apply in_factual in H. eapply N; apply H.
Qed.
Print Assumptions C22_only_abstract_concepts.
Example C22_example : ~ reportable sample_concept "t#Abstract" /\ ~ reportable sample_concept "t#Missing" /\ reportable sample_concept "t#A".
Proof.
  split; [|split]; [intros (k & [= <-] & N); discriminate|intros (k & N & _); discriminate|].
  eexists. split; reflexivity.
Qed.

(** C23 *)
Theorem C23_outline :
  forall tree lbl role lbs labels packs,
    (forall lb k, In lb lbs -> In k (lbLinks lb) ->
       orders_are_numbers (tree (map (fun a => Arc (paArcrole a) (paOrder a) (paFrom a) (paTo a)) (lArcs k))
                                "http://www.xbrl.org/2003/arcrole/parent-child")) ->
    get_indented_labels tree lbl role lbs = (labels, packs) ->
    ((forall lb, In lb lbs -> ~ has_network role lb) /\ labels = []) \/
    (exists lb k out, first_such (has_network role) lbs lb /\
       first_such (fun k => lRole k = role) (lbLinks lb) k /\
       let root := tree (map (fun a => Arc (paArcrole a) (paOrder a) (paFrom a) (paTo a)) (lArcs k))
                        "http://www.xbrl.org/2003/arcrole/parent-child" in
       preorder 0 root out /\ Permutation (map fst out) (locators_below root) /\
       Forall2 (fun x l => locates lb role (fst x) (ilHref l) /\ ilIndentation l = snd x /\
                           ilLabel l = lbl (ilHref l)) out labels).
Proof.
  intros tree lbl role lbs labels packs HN. unfold get_indented_labels.
  assert (FL : forall l : list (linkbase parc),
    (first_link role l = None /\ forall lb, In lb l -> ~ has_network role lb) \/
    (exists lb k, first_link role l = Some (lb, k) /\ first_such (has_network role) l lb /\
                  first_such (fun k => lRole k = role) (lbLinks lb) k)).
  { induction l as [|lb l IH]; [left; split; auto; intros ? []|]. cbn [first_link].
    assert (EX : existsb (fun rr => String.eqb role (rrRoleURI rr)) (lbRoleRefs lb) = true <->
                 exists rr, In rr (lbRoleRefs lb) /\ rrRoleURI rr = role).
    { rewrite existsb_exists. split; intros (x & Hx & E); exists x; split; auto;
        [symmetry; now apply String.eqb_eq|rewrite E; apply String.eqb_refl]. }
    assert (P : forall k : link parc, String.eqb (lRole k) role = true <-> lRole k = role)
      by (intro; apply String.eqb_eq).
    assert (NO : ~ has_network role lb ->
      (first_link role l = None /\ forall lb', In lb' (lb :: l) -> ~ has_network role lb') \/
      (exists lb' k, first_link role l = Some (lb', k) /\ first_such (has_network role) (lb :: l) lb' /\
                    first_such (fun k => lRole k = role) (lbLinks lb') k)).
    { intro N. destruct IH as [[E H]|(lb' & k & E & (l1 & l2 & -> & H & K) & F)].
      - left. split; auto. intros x [<-|Hx]; auto.
      - right. exists lb', k. split; auto. split; auto. exists (lb :: l1), l2. split; auto. split; auto.
        intros y [<-|Hy]; auto. }
    destruct (existsb _ _).
    - destruct (find (fun k => String.eqb (lRole k) role) (lbLinks lb)) as [k|] eqn:E.
      + right. exists lb, k. split; auto. split.
        * exists [], l. split; auto. split; [|intros ? []]. split; [now apply EX|].
          apply find_some in E. exists k. split; [tauto|]. now apply P.
        * now apply (find_first_such _ _ _ _ P).
      + apply NO. intros [_ (k & Hk & Ek)]. apply (proj1 (find_none_iff _ _ _ P) E k); auto.
    - apply NO. intros [H _]. apply EX in H. discriminate. }
  destruct (FL lbs) as [[-> H]|(lb & k & -> & H & K)].
  - intros [= <- _]. auto.
  - intros [= <- _]. right. exists lb, k, (listing (tree (p_arcs (lArcs k)) PresentationArcrole) 0).
    split; auto. split; auto. cbv zeta. split.
    { apply listing_preorder. apply (HN lb).
      - destruct H as (l1 & l2 & -> & _). apply in_elt.
      - destruct K as (l1 & l2 & -> & _). apply in_elt. } split; [apply listing_all|].
    induction (listing _ 0) as [|x l IH]; cbn [map]; constructor; auto. cbn [ilHref ilIndentation ilLabel].
    split; auto. apply locates_fun.
Qed.
Print Assumptions C23_outline.
Definition parc_ (from to : string) (o : nat) := PArc (f64_of_nat o) "http://www.xbrl.org/2003/arcrole/parent-child" from to "" .
Definition sample_network : linkbase parc :=
  Linkbase "pre.xml" [RoleRef "urn:role" "t.xsd#role"]
    [Link "urn:role" [Loc "t#Abstract" "l0"; Loc "t#A" "l1"; Loc "t#B" "l2"; Loc "t#C" "l3"]
       [parc_ "l0" "l1" 2; parc_ "l0" "l2" 1; parc_ "l2" "l3" 1]].
Example C23_example :
  map (fun l => (ilHref l, ilIndentation l)) (fst (get_indented_labels sample_tree sample_label "urn:role" [sample_network]))
  = [("t#Abstract", 0); ("t#B", 1); ("t#C", 2); ("t#A", 1)].
Proof. vm_compute. reflexivity. Qed.
Example C23_orders : forall lb k, In lb [sample_network] -> In k (lbLinks lb) ->
  orders_are_numbers (sample_tree (map (fun a => Arc (paArcrole a) (paOrder a) (paFrom a) (paTo a)) (lArcs k))
                                  "http://www.xbrl.org/2003/arcrole/parent-child").
Proof.
  intros lb k [<-|[]] [<-|[]].
  assert (G : forall fuel arcs l o, o <> S754_nan -> (forall a, In a arcs -> arOrder a <> S754_nan) ->
              orders_are_numbers (grow fuel arcs l o)).
  { induction fuel as [|n IH]; intros arcs l o Ho Ha k Hk; apply node_of_inv in Hk;
      (destruct Hk as [->|(c & Hc & Hk)]; [exact Ho|]); cbn [grow ra_children] in Hc; [contradiction|].
    apply in_map_iff in Hc. destruct Hc as (a & <- & Hin). apply filter_In in Hin.
    eapply IH; [|exact Ha|exact Hk]. apply Ha. tauto. }
  intros n Hn. apply node_of_inv in Hn. destruct Hn as [->|(c & Hc & Hn)]; [discriminate|].
  unfold sample_tree in Hc. cbn [ra_children] in Hc. apply in_map_iff in Hc. destruct Hc as (s & <- & _).
  eapply G; [| |exact Hn]; [discriminate|]. intros a Ha. apply filter_In in Ha. destruct Ha as [Ha _].
  simpl in Ha. repeat destruct Ha as [<-|Ha]; try contradiction; discriminate.
Qed.

(** C77 *)
Theorem C77_paths :
  forall trees, Forall nonempty_tree trees ->
    (forall p, path_in (ra_children (reduce_trees trees)) p <->
               exists t, In t trees /\ path_in (ra_children t) p) /\
    distinct_siblings (reduce_trees trees).
Proof.
  intros trees F. rewrite reduce_trees_eq by auto. cbn [ra_children]. split.
  - intro p. rewrite dedup_paths by auto. apply path_in_flat.
  - destruct (dedup_distinct (forest_height (flat_map ra_children trees)) (flat_map ra_children trees) 0) as [H K].
    intros n Hn. apply node_of_inv in Hn. destruct Hn as [->|(c & Hc & Hn)]; [exact H|].
    cbn [ra_children] in Hc. eapply K; eauto.
Qed.
Print Assumptions C77_paths.
(** The children of a merged node come in the order in which the trees first name them. *)
Theorem C77_sibling_order :
  forall trees, Forall nonempty_tree trees ->
    dedup_of (map ra_locator (flat_map ra_children trees)) (map ra_locator (ra_children (reduce_trees trees))).
Proof.
  intros trees F. rewrite reduce_trees_eq by auto. cbn [ra_children].
  destruct (forest_height (flat_map ra_children trees)) eqn:E.
  - destruct (flat_map ra_children trees) as [|c t]; [constructor|]. exfalso.
    assert (H := height_in c (c :: t) (or_introl eq_refl)). rewrite <- height_children in H. lia.
  - rewrite dedup_locators. apply uniq_dedup_of, seqP.
Qed.
Print Assumptions C77_sibling_order.
Example C77_example :
  let t l cs := RArc l (f64_of_nat 1) cs in
  let trees := [t "" [t "D1" [t "a" [t "b" []]]]; t "" [t "D2" [t "c" []]]; t "" [t "D1" [t "a" [t "d" []]; t "e" []]]] in
  Forall nonempty_tree trees /\
  ra_children (reduce_trees trees) =
    [RArc "D1" (f64_of_nat 1) [RArc "a" (f64_of_nat 2) [RArc "b" (f64_of_nat 3) []; RArc "d" (f64_of_nat 4) []]; RArc "e" (f64_of_nat 3) []];
     RArc "D2" (f64_of_nat 2) [RArc "c" (f64_of_nat 3) []]].
Proof. split; [repeat constructor; discriminate|vm_compute; reflexivity]. Qed.

(** C31 *)
(** the claim: the column's explicit members are shown in rows of their dimensions *)
Definition shows_members (cols : list relevant_context) (grid : list (list member_cell)) (void : list void_cell) : Prop :=
  forall j c m e, nth_error cols j = Some c -> In m (rcMembers c) ->
    rmExplicit m = Some e -> rmTypedDomain m = None -> lbHref (rmDimension m) <> "" ->
    (forall m', In m' (rcMembers c) -> lbHref (rmDimension m') = lbHref (rmDimension m) -> m' = m) ->
    exists i v, nth_error void i = Some v /\ lbHref (vcDimension v) = lbHref (rmDimension m) /\
      vcTypedDomain v = None /\ cell grid i j (MemberCell (Some e) "").
Definition first_entry : list (string * relevant_member) -> list (string * relevant_member) := fun l => l.
(** A typed member whose domain is not a simple value (its outer element has no text) makes
    every row disappear. *)
Definition complex_typed : typed_member :=
  TypedMember "t#Region" "t:Region" "t#region" [("t#leaf", "north")]
    [TArc (f64_of_nat 1) "t#Region" "t#outer"; TArc (f64_of_nat 2) "t#outer" "t#leaf"].
Definition complex_context : context :=
  plain_context "c1" "2020-01-01" "2020-12-31" (DimContext [ExplicitMember "t#Product" "t:Product" "t#Cars" "t:Cars"] [complex_typed]).
Theorem C31_refuted :
  exists cols seg scen packs grid void,
    get_relevant_contexts sample_tree sample_label sample_concept in_document_order "http://cik/0001"
      [Instance "i.xml" [complex_context] [] [] [Fact "t#A" "f1" "c1" "" 0 false "x"]] ["t#A"]
      = Ok (cols, seg, scen, packs) /\
    get_member_grid first_entry cols seg scen = Ok (grid, void) /\
    ~ shows_members cols grid void.
Proof.
  do 6 eexists. split; [vm_compute; reflexivity|]. split; [vm_compute; reflexivity|].
  intro H. specialize (H 0 _ _ _ eq_refl (or_introl eq_refl) eq_refl eq_refl).
  destruct H as (i & v & Hv & _); [discriminate| |destruct i; discriminate].
  intros m' Hm' E. simpl in Hm'. repeat destruct Hm' as [<-|Hm']; try contradiction; [reflexivity|discriminate].
Qed.
Print Assumptions C31_refuted.
Theorem C31_partial :
  forall member_order cols seg scen,
    (forall l, Permutation (member_order l) l) ->
    Forall (reported_tree cols) seg -> Forall (reported_tree cols) scen ->
    exists grid void, get_member_grid member_order cols seg scen = Ok (grid, void) /\ shows_members cols grid void.
Proof.
  intros mo cols seg scen MO F1 F2. destruct cols as [|c0 cs0].
  - exists [], []. split; [reflexivity|]. intros j c m e Hj. now destruct j.
  - set (cols := c0 :: cs0) in *.
    assert (G1 : Forall (reported_tree cols) (isort locator_less seg)).
    { rewrite Forall_forall in *. intros t Ht. rewrite isort_in in Ht. auto. }
    assert (G2 : Forall (reported_tree cols) (isort locator_less scen)).
    { rewrite Forall_forall in *. intros t Ht. rewrite isort_in in Ht. auto. }
    destruct (void_spec mo (fun _ => True) cols _ _ G1 G2) as (rows & E & _); [auto|].
    set (void := (explicit_rows mo (dimension_members cols) ++ rows)%list) in *.
    exists (map (fun x => map (member_cell_at x) cols) void), void. split.
    + unfold get_member_grid, cols. fold cols. rewrite E. reflexivity.
    + intros j c m e Hj Hm EE ET ND UQ.
      assert (Hc : In c cols) by (eapply nth_error_In; eauto).
      destruct (explicit_rows_ex mo MO (dimension_members cols) m e) as (v & Hv & Ev & Tv);
        [eapply member_In; eauto|auto|].
      assert (Hv' : In v void) by (apply in_or_app; auto).
      apply In_nth_error in Hv'. destruct Hv' as [i Hi]. exists i, v. split; auto. split; auto. split; auto.
      exists (map (member_cell_at v) cols). split; [now apply (map_nth_error (fun x => map (member_cell_at x) cols))|].
      erewrite map_nth_error; [|exact Hj]. f_equal. unfold member_cell_at. rewrite Tv, Ev.
      destruct (find _ (rcMembers c)) as [m'|] eqn:EF.
      * apply find_some in EF. destruct EF as [Hm' C]. apply andb_true_iff in C. destruct C as [C1 C2].
        apply String.eqb_eq in C1. rewrite (UQ m' Hm' C1), ET, EE. reflexivity.
      * exfalso. apply find_none with (x := m) in EF; auto. rewrite String.eqb_refl, ET in EF. discriminate.
Qed.
Print Assumptions C31_partial.
(** What the cells show: the first member of the column that is about the row's dimension and
    typed domain, and nothing if there is none. *)
Definition about_row (v : void_cell) (m : relevant_member) : Prop :=
  lbHref (rmDimension m) = lbHref (vcDimension v) /\
  ((rmTypedDomain m = None /\ vcTypedDomain v = None) \/
   exists a b, rmTypedDomain m = Some a /\ vcTypedDomain v = Some b /\ lbHref a = lbHref b).
Theorem C31_cells :
  forall member_order cols seg scen grid void i j v c,
    get_member_grid member_order cols seg scen = Ok (grid, void) ->
    nth_error void i = Some v -> nth_error cols j = Some c ->
    exists x, cell grid i j x /\
      (forall m, first_such (about_row v) (rcMembers c) m ->
         (rmTypedDomain m = None -> x = MemberCell (rmExplicit m) "") /\
         (rmTypedDomain m <> None -> x = MemberCell None (rmTypedMember m))) /\
      ((forall m, In m (rcMembers c) -> ~ about_row v m) -> x = MemberCell None "").
Proof.
  intros mo cols seg scen grid void i j v c E Hi Hj. exists (member_cell_at v c). split.
  - unfold get_member_grid in E. destruct cols as [|c0 cs]; [now destruct j|].
    destruct (get_void_quadrant _ _ _ _) as [v0|?|]; cbn [bind] in E; try discriminate. injection E as <- <-.
    exists (map (member_cell_at v) (c0 :: cs)). split; [|now apply map_nth_error].
    now apply (map_nth_error (fun x => map (member_cell_at x) (c0 :: cs))).
  - assert (HA : forall m, String.eqb (lbHref (rmDimension m)) (lbHref (vcDimension v)) &&
                match rmTypedDomain m, vcTypedDomain v with
                | Some a, Some b => String.eqb (lbHref a) (lbHref b)
                | None, None => true
                | _, _ => false
                end = true <-> about_row v m).
    { intros m. unfold about_row. rewrite andb_true_iff, String.eqb_eq.
      destruct (rmTypedDomain m) as [a|], (vcTypedDomain v) as [b|]; try rewrite String.eqb_eq.
      - split; [intros [A B]; split; auto; right; eauto|]. intros [A [[B _]|(a' & b' & B & C & D)]]; [discriminate|]. split; congruence.
      - split; [intros [_ B]; discriminate|]. intros [_ [[B _]|(a' & b' & B & C & _)]]; discriminate.
      - split; [intros [_ B]; discriminate|]. intros [_ [[_ B]|(a' & b' & B & C & _)]]; discriminate.
      - split; [intros [A _]; auto|]. intros [A _]; auto. }
    split.
    + intros m Hm. apply (find_first_such _ _ _ _ HA) in Hm. unfold member_cell_at. rewrite Hm.
      destruct (rmTypedDomain m); split; auto; congruence.
    + intros N. unfold member_cell_at. destruct (find _ (rcMembers c)) as [m|] eqn:F; [|reflexivity].
      apply find_some in F as [F1 F2]. apply HA in F2. now elim (N m F1).
Qed.
Print Assumptions C31_cells.
(** Without typed members the rows are exactly those of the explicit dimensions. *)
Theorem C31_rows :
  forall member_order cols grid void,
    (forall l, Permutation (member_order l) l) ->
    get_member_grid member_order cols [] [] = Ok (grid, void) ->
    forall v, In v void -> vcTypedDomain v = None /\
      exists c m e, In c cols /\ In m (rcMembers c) /\ rmExplicit m = Some e /\ rmDimension m = vcDimension v.
Proof.
  intros mo cols grid void MO. destruct cols as [|c0 cs0].
  - intros [= <- <-] v [].
  - set (cols := c0 :: cs0) in *.
    destruct (void_spec mo (fun _ => False) cols [] [] (Forall_nil _) (Forall_nil _)) as (rows & E & FR); [intros ? ? ? []|].
    unfold get_member_grid, cols. fold cols. cbn [isort]. rewrite E. cbn [bind]. intros [= _ <-] v Hv.
    apply in_app_or in Hv. destruct Hv as [Hv|Hv].
    + destruct (explicit_rows_In mo MO _ _ Hv) as (A & _ & _ & (m & e & Hm & B & C)). split; auto.
      destruct (In_member _ _ Hm) as (c & Hc & Hm' & _). eauto 8.
    + rewrite Forall_forall in FR. destruct (FR v Hv) as [[] _].
Qed.
Print Assumptions C31_rows.
Definition simple_typed (dim dom v : string) : typed_member :=
  TypedMember dim "" "" [(dom, v)] [TArc (f64_of_nat 1) dim dom].
Definition mixed_context : context :=
  plain_context "c1" "2020-01-01" "2020-12-31"
    (DimContext [ExplicitMember "t#Product" "t:Product" "t#Cars" "t:Cars"] [simple_typed "t#Region" "t#region" "north"]).
Example C31_example :
  exists c seg grid v1 v2 v3 packs,
    get_relevant_contexts sample_tree sample_label sample_concept in_document_order "http://cik/0001"
      [Instance "i.xml" [mixed_context] [] [] [Fact "t#A" "f1" "c1" "" 0 false "x"]] ["t#A"]
      = Ok ([c], seg, [], packs) /\
    Forall (reported_tree [c]) seg /\ seg <> [] /\
    get_member_grid first_entry [c] seg [] = Ok (grid, [v1; v2; v3]) /\
    map (fun v => lbHref (vcDimension v)) [v1; v2; v3] = ["t#Product"; "t#Region"; "t#Region"] /\
    map (map (fun m => (option_map lbHref (mcExplicit m), mcTyped m))) grid = [[(Some "t#Cars", "")]; [(None, "")]; [(None, "north")]].
Proof.
  do 7 eexists. split; [vm_compute; reflexivity|]. split; [|split; [discriminate|split; [vm_compute; reflexivity|split; vm_compute; reflexivity]]].
  constructor; [|constructor]. split; [split; [reflexivity|discriminate]|].
  intros d [<-|[]]. split; [discriminate|]. split.
  - do 2 eexists. split; [now left|]. split; [right; left; reflexivity|]. reflexivity.
  - intros n [<-|[]] k Hk. apply node_of_inv in Hk. destruct Hk as [->|(x & [] & _)]. split; [discriminate|].
    do 3 eexists. split; [now left|]. split; [right; left; reflexivity|]. split; [discriminate|]. split; reflexivity.
Qed.

(** C32 *)
(** the claim: a row for a typed domain names a dimension under which the domain was reported *)
Definition rows_name_their_dimension (cols : list relevant_context) (void : list void_cell) : Prop :=
  forall v t, In v void -> vcTypedDomain v = Some t ->
    exists c m t', In c cols /\ In m (rcMembers c) /\ rmTypedDomain m = Some t' /\ lbHref t' = lbHref t /\
      lbHref (rmDimension m) = lbHref (vcDimension v).
Definition two_typed_context : context :=
  plain_context "c1" "2020-01-01" "2020-12-31"
    (DimContext [] [simple_typed "t#Region" "t#region" "north"; simple_typed "t#Store" "t#store" "7"]).
Theorem C32_refuted :
  exists cols seg scen packs grid void,
    get_relevant_contexts sample_tree sample_label sample_concept in_document_order "http://cik/0001"
      [Instance "i.xml" [two_typed_context] [] [] [Fact "t#A" "f1" "c1" "" 0 false "x"]] ["t#A"]
      = Ok (cols, seg, scen, packs) /\
    get_member_grid first_entry cols seg scen = Ok (grid, void) /\
    ~ rows_name_their_dimension cols void.
Proof.
  do 6 eexists. split; [vm_compute; reflexivity|]. split; [vm_compute; reflexivity|].
  intro H. destruct (H _ _ (or_intror (or_intror (or_intror (or_introl eq_refl)))) eq_refl)
    as (c & m & t' & [<-|[]] & Hm & E1 & E2 & E3).
  simpl in Hm. repeat destruct Hm as [<-|Hm]; try contradiction; simpl in E1; injection E1 as <-; discriminate.
Qed.
Print Assumptions C32_refuted.
(** With a single typed dimension the rows are right. *)
Theorem C32_one_dimension_partial :
  forall member_order cols seg scen d grid void,
    (forall l, Permutation (member_order l) l) ->
    Forall (reported_tree cols) seg -> Forall (reported_tree cols) scen ->
    (forall t x, In t (seg ++ scen)%list -> In x (ra_children t) -> ra_locator x = d) ->
    (forall c m t, In c cols -> In m (rcMembers c) -> rmTypedDomain m = Some t -> lbHref (rmDimension m) = d) ->
    get_member_grid member_order cols seg scen = Ok (grid, void) ->
    rows_name_their_dimension cols void.
Proof.
  intros mo cols seg scen d grid void MO F1 F2 HD HM. destruct cols as [|c0 cs0].
  - intros [= <- <-] v t [].
  - set (cols := c0 :: cs0) in *.
    assert (G1 : Forall (reported_tree cols) (isort locator_less seg)).
    { rewrite Forall_forall in *. intros t Ht. rewrite isort_in in Ht. auto. }
    assert (G2 : Forall (reported_tree cols) (isort locator_less scen)).
    { rewrite Forall_forall in *. intros t Ht. rewrite isort_in in Ht. auto. }
    destruct (void_spec mo (fun x => lbHref x = d) cols _ _ G1 G2) as (rows & E & FR).
    { intros t x y Ht Hx Ey. apply dims_sound in Ey. destruct Ey as [-> _]. apply (HD t x); auto.
      apply in_app_or in Ht. apply in_or_app. rewrite !isort_in in Ht. exact Ht. }
    unfold get_member_grid, cols. fold cols. rewrite E. cbn [bind]. intros [= _ <-] v t Hv Tv.
    apply in_app_or in Hv. destruct Hv as [Hv|Hv].
    + apply explicit_rows_In in Hv; auto. destruct Hv as (N & _). congruence.
    + rewrite Forall_forall in FR. destruct (FR v Hv) as [Dv HT]. specialize (HT t Tv).
      apply typed_sound in HT. destruct HT as (_ & m & Hm & Em).
      destruct (In_member _ _ Hm) as (c & Hc & Hm' & _). exists c, m, t. repeat split; auto.
      rewrite Dv. eapply HM; eauto.
Qed.
Print Assumptions C32_one_dimension_partial.
