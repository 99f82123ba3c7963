(** * LangProofs: lemmas for C156 *)
From Verif Require Import GoBase GoSpec GoFacts AttrModel SchemaModel LinkbaseModel InstanceModel InstanceSpec LabelModel LabelSpec LabelProofs
  LabelProps FactModel GridModel GridSpec GridProofs GridProps CalcModel CalcSpec CalcProofs CalcProps DefModel DefSpec DefProofs LangSpec.
Local Open Scope string_scope.

Lemma speaks_iff p lang : speaks p lang <-> exists role m, In (role, m) p /\ In lang (map fst m).
Proof.
  split.
  - intros (role & t & m & H1 & H2). exists role, m. split; auto. now apply (in_map fst) in H2.
  - intros (role & m & H1 & H2). apply in_map_iff in H2. destruct H2 as ([l t] & <- & H2). exists role, t, m. auto.
Qed.

Section Packs.
  Variable lbl : string -> label_pack.
  Hypothesis LP : forall h, is_pack (lbl h).
  Definition from_labels (U : string -> Prop) (packs : list label_pack) : Prop :=
    forall p, In p packs -> exists h, U h /\ p = lbl h.
  Lemma from_is_pack U packs : from_labels U packs -> forall p, In p packs -> is_pack p.
  Proof. intros F p Hp. destruct (F p Hp) as (h & _ & ->). apply LP. Qed.
  Lemma langs_some U packs lang : from_labels U packs ->
    In lang (snd (roles_and_langs packs)) -> exists h, U h /\ speaks (lbl h) lang.
  Proof.
    intros F H. apply C36_languages_partial in H; [|now apply from_is_pack with U].
    destruct H as (role & p & m & (l1 & l2 & -> & _ & _) & H1 & H2).
    destruct (F p) as (h & Uh & ->); [apply in_or_app; right; now left|].
    exists h. split; auto. apply speaks_iff. eauto.
  Qed.
  Lemma langs_all U packs h lang : from_labels U packs -> same_languages lbl U -> In (lbl h) packs -> U h ->
    speaks (lbl h) lang -> In lang (snd (roles_and_langs packs)).
  Proof.
    intros F S Hin Uh (role & t & H). apply C36_languages_partial; [now apply from_is_pack with U|].
    assert (R : has_role role (lbl h)) by (destruct H as (m & H & _); now apply (in_map fst) in H).
    assert (P : forall y, mem String.eqb role (map fst y) = true <-> has_role role y).
    { intro y. unfold has_role. destruct (mem String.eqb role (map fst y)) eqn:M.
      - split; auto. intros _. destruct (in_dec string_dec role (map fst y)) as [I|I]; auto.
        apply (mem_false String.eqb seqP) in I. congruence.
      - split; [discriminate|]. apply (mem_false String.eqb seqP) in M. contradiction. }
    assert (X : exists q, last_such (has_role role) packs q).
    { destruct (find (fun y => mem String.eqb role (map fst y)) (rev packs)) as [q|] eqn:E.
      - exists q. apply find_rev_last in E. revert E. apply last_such_iff. intros y _. apply P.
      - exfalso. rewrite find_rev_None in E. specialize (E _ Hin). cbv beta in E. apply P in R. congruence. }
    destruct X as (q & X). pose proof X as (l1 & l2 & E & Q & _).
    destruct (F q) as (h' & Uh' & ->); [rewrite E; apply in_or_app; right; now left|].
    destruct (S h h' role lang t Uh Uh' H Q) as (t' & m & M1 & M2). exists role, (lbl h'), m.
    split; auto. split; auto. now apply (in_map fst) in M2.
  Qed.
  Lemma roles_some U packs role : from_labels U packs ->
    In role (fst (roles_and_langs packs)) -> exists h, U h /\ has_role role (lbl h).
  Proof.
    intros F H. apply C36_roles in H; [|now apply from_is_pack with U]. destruct H as (p & Hp & H).
    destruct (F p Hp) as (h & Uh & ->). eauto.
  Qed.
  Lemma roles_all U packs h role : from_labels U packs -> In (lbl h) packs -> has_role role (lbl h) ->
    In role (fst (roles_and_langs packs)).
  Proof. intros F H R. apply C36_roles; [now apply from_is_pack with U|]. eauto. Qed.

  (** *** The labels of the columns *)
  Lemma context_packs_iff tree typed_order c p :
    In p (cxPacks (get_contextual_members tree lbl typed_order c)) <-> exists h, p = lbl h /\ mentions c h.
  Proof.
    split.
    - intro H. apply context_packs in H. destruct H as (h & d & E & Hd & H). exists h. split; auto. exists d. auto.
    - intros (h & -> & d & Hd & H). cbn. unfold explicit_packs, typed_packs. rewrite !in_app_iff, !in_flat_map.
      destruct H as [(e & He & [-> | ->])|(t & Ht & ->)]; destruct Hd as [-> | ->].
      + left. exists e. cbn. auto.
      + right. right. left. exists e. cbn. auto.
      + left. exists e. cbn. auto.
      + right. right. left. exists e. cbn. auto.
      + right. left. exists t. cbn. auto.
      + right. right. right. exists t. cbn. auto.
  Qed.
  Lemma column_packs tree concept_of typed_order entity insts hrefs cols seg scen packs :
    get_relevant_contexts tree lbl concept_of typed_order entity insts hrefs = Ok (cols, seg, scen, packs) ->
    forall p, In p packs <-> exists h i c, p = lbl h /\ In i insts /\ reported_in concept_of i entity hrefs c /\ mentions c h.
  Proof.
    intros E p.
    destruct (relevant_spec tree lbl concept_of typed_order entity insts hrefs) as [[_ P]|[_ (css & F & Q)]]; [congruence|].
    rewrite Q in E. injection E as _ _ _ <-. rewrite in_flat_map. split.
    - intros (c & Hc & Hp). apply (context_packs_iff tree typed_order) in Hp. destruct Hp as (h & -> & M).
      apply in_concat in Hc. destruct Hc as (cs & Hcs & Hc).
      destruct (Forall2_In_r _ _ _ _ F Hcs) as (i & Hi & _ & HR). apply HR in Hc. exists h, i, c. repeat (split; [assumption || reflexivity|]). assumption.
    - intros (h & i & c & -> & Hi & R & M).
      assert (X : exists cs, In cs css /\ In c cs).
      { clear - F Hi R. induction F as [|i' cs l l' [_ HR] F IH]; [destruct Hi|].
        destruct Hi as [->|Hi]; [exists cs; split; [now left|now apply HR]|]. destruct (IH Hi) as (cs' & A & B). exists cs'. split; auto. now right. }
      destruct X as (cs & Hcs & Hc). exists c. split; [apply in_concat; eauto|]. apply (context_packs_iff tree typed_order). eauto.
  Qed.
End Packs.

(** ** The defaults of the effective domains *)
Lemma effective_defaults href_of lbl w item dim p :
  In p (snd (get_effective_domain href_of lbl w item dim)) <->
  exists e, In e (fst (get_effective_domain href_of lbl w item dim)) /\ emDefault e = true /\ p = lbl (emHref e).
Proof.
  revert p.
  set (ok := fun st => forall p, In p (esPacks st) <-> exists e, In e (esRet st) /\ emDefault e = true /\ p = lbl (emHref e)).
  assert (AD : forall s a n a', ok a -> add_default href_of lbl s a n = Some a' -> ok a').
  { unfold add_default. intros s a n a' Oa. destruct (mem _ _ _); [discriminate|]. intros [= <-] q. cbn [esPacks esRet].
    rewrite in_app_iff, (Oa q). cbn. split.
    - intros [(e & H1 & H2)|[<-|[]]]; [exists e; rewrite in_app_iff; tauto|].
      eexists. rewrite in_app_iff. split; [right; left; reflexivity|]. auto.
    - intros (e & H1 & H2 & ->). apply in_app_iff in H1. destruct H1 as [H1|[<-|[]]]; eauto. }
  assert (TR : forall s n st, ok st -> ok (traverse href_of lbl s n st)).
  { intros s n. induction n as [l o cs IH] using rarc_rect'. intros st O. cbn [traverse].
    destruct (mem _ _ _); [intro; cbn; split; [intros []|intros (? & [] & _)]|]. apply fold_left_inv.
    - intros a b Hb Oa. rewrite Forall_forall in IH. now apply IH.
    - intro q. cbn [esPacks esRet]. rewrite (O q). split; intros (e & H1 & H2 & H3); exists e; rewrite in_app_iff in *; [tauto|].
      destruct H1 as [H1|[<-|[]]]; [auto|discriminate]. }
  assert (AM : forall s hs st, ok st -> ok (add_members href_of lbl s (nwHcDim w) (nwDimDomain w) (nwDomains w) dim hs st)).
  { intros s hs st O. rewrite add_members_eq. apply fold_left_inv; auto. }
  assert (NIL : forall q : label_pack, In q [] <-> exists e, In e (@nil effective_member) /\ emDefault e = true /\ q = lbl (emHref e)).
  { intro q. split; [intros []|intros (? & [] & _)]. }
  unfold get_effective_domain. cbv zeta. destruct (existsb _ _); [exact NIL|].
  destruct (included_defaults _ _ _ _ _ _ _) as [s1|] eqn:E1; [|exact NIL].
  assert (O1 : ok s1).
  { rewrite included_defaults_eq in E1. revert E1. apply foldO_inv; [|exact NIL]. intros a n a'. apply AD. }
  destruct (excluded_defaults _ _ _ _ _ _) as [s2|] eqn:E2; [|exact NIL].
  assert (O2 : ok s2).
  { revert E2. apply foldO_inv; [|exact O1].
    intros a x a' Ga. apply foldO_inv; auto. intros b h b' Gb. destruct (String.eqb h _); [|now intros [= <-]].
    apply foldO_inv; auto. intros c d c' Gc. destruct (mem _ _ _); [now intros [= <-]|].
    apply foldO_inv; auto. intros e n e'. apply AD. }
  cbn [fst snd]. intro p.
  match goal with |- In p (esPacks ?s4) <-> _ => assert (O4 : ok s4) end.
  { apply AM. match goal with |- ok (EDState [] _ (esPacks ?s3)) => assert (O3 : ok s3) by (apply AM; exact O2); exact O3 end. }
  rewrite (O4 p). split; intros (e & H1 & H2); exists e; (split; [|exact H2]); [apply isort_in|apply isort_in in H1]; exact H1.
Qed.

(** ** The presentation grid *)
Lemma p_grid_offers tree lbl concept_of g entity role lbs p roles langs :
  (forall h, is_pack (lbl h)) ->
  (forall x, Permutation (fst (ge_destruct g x)) (fst x) /\ Permutation (snd (ge_destruct g x)) (snd x)) ->
  p_grid_of tree lbl concept_of g entity role lbs = Ok (p, roles, langs) ->
  let U := row_or_column concept_of (ge_instances g) entity (map ilHref (pgLabels p)) in
  (forall r, In r roles <-> exists h, U h /\ has_role r (lbl h)) /\
  (forall lang, In lang langs -> exists h, U h /\ speaks (lbl h) lang) /\
  (same_languages lbl U -> forall h lang, U h -> speaks (lbl h) lang -> In lang langs).
Proof.
  intros LP GD. unfold p_grid_of. destruct (get_indented_labels _ _ _ _) as [labels packs] eqn:EL.
  assert (PK : packs = map ilLabel labels /\ forall i, In i labels -> ilLabel i = lbl (ilHref i)).
  { unfold get_indented_labels in EL. destruct (first_link role lbs) as [[lb k]|]; injection EL as <- <-; [|split; auto; intros ? []].
    split; auto. intros i Hi. apply in_map_iff in Hi. destruct Hi as (x & <- & _). reflexivity. }
  destruct PK as [-> IL]. clear EL.
  destruct (get_relevant_contexts _ _ _ _ _ _ _) as [[[[cols seg] scen] cpacks]| |] eqn:E1; cbn [bind]; try discriminate.
  set (packs := (map ilLabel labels ++ cpacks)%list).
  pose proof (GD (roles_and_langs packs)) as [GR GL].
  destruct (ge_destruct _ _) as [rs ls]. cbn [fst snd] in GR, GL.
  destruct (get_factual_quadrant _ _ _ _ _ _ _) as [[[facts fgrid] notes]| |]; cbn [bind]; try discriminate.
  destruct (get_member_grid _ _ _ _) as [[members void]| |]; cbn [bind]; try discriminate.
  intros [= <- <- <-]. cbn [pgLabels]. set (U := row_or_column concept_of (ge_instances g) entity (map ilHref labels)).
  assert (F : from_labels lbl U packs).
  { intros q Hq. apply in_app_iff in Hq. destruct Hq as [Hq|Hq].
    - apply in_map_iff in Hq. destruct Hq as (i & <- & Hi). exists (ilHref i). split; auto. left. now apply in_map.
    - apply (column_packs _ _ _ _ _ _ _ _ _ _ _ E1) in Hq. destruct Hq as (h & i & c & -> & H). exists h. split; auto. right. exists i, c. auto. }
  assert (C : forall h, U h -> In (lbl h) packs).
  { intros h [Hh|(i & c & H)]; apply in_app_iff.
    - left. apply in_map_iff in Hh. destruct Hh as (i & <- & Hi). rewrite <- IL by auto. now apply in_map.
    - right. apply (column_packs _ _ _ _ _ _ _ _ _ _ _ E1). exists h, i, c. tauto. }
  split; [|split].
  - intro r. split.
    + intro H. apply (Permutation_in _ GR) in H. eapply roles_some; eauto.
    + intros (h & Uh & H). apply (Permutation_in _ (Permutation_sym GR)). eapply roles_all; eauto.
  - intros lang H. apply (Permutation_in _ GL) in H. eapply langs_some; eauto.
  - intros S h lang Uh H. apply (Permutation_in _ (Permutation_sym GL)). eapply langs_all; eauto.
Qed.

(** ** The calculation grid *)
Section Sums.
  Variable tree : list arc -> string -> rarc.
  Variable lbl : string -> label_pack.
  Hypothesis LP : forall h, is_pack (lbl h).
  Variable concept_of : string -> option concept.
  Variable genv : string -> grid_env.
  Variable entity role : string.
  Variable insts : list instance.
  Hypothesis HI : forall from i, In i (ge_instances (genv from)) <-> In i insts.
  Hypothesis GD : forall from x,
    Permutation (fst (ge_destruct (genv from) x)) (fst x) /\ Permutation (snd (ge_destruct (genv from) x)) (snd x).
  Variable lb : linkbase carc.
  Variable k : link carc.
  Notation cmap := (c_map role lb (lArcs k)).
  Notation step := (c_source tree lbl concept_of genv entity cmap).
  Notation rows_of from slice := (map ccHref (collect (contributing_of lbl concept_of cmap) slice) ++ [from])%list.

  Lemma source_rows from slice : In (from, slice) cmap ->
    (exists a, In a (lArcs k) /\ arc_from role lb from a) /\ sum_rows concept_of role lb k from (rows_of from slice).
  Proof.
    intro Hin. pose proof (proj2 (sget_iff _ _ _ (c_map_is_map role lb (lArcs k))) Hin) as G.
    apply c_map_get in G. destruct G as [NE ->]. split.
    - destruct (filter (fromb role lb from) (lArcs k)) as [|a l] eqn:FE; [congruence|].
      assert (Ha : In a (filter (fromb role lb from) (lArcs k))) by (rewrite FE; now left).
      apply filter_In in Ha. exists a. split; [tauto|]. now apply frombP.
    - intro x. rewrite in_app_iff, in_map_iff. split.
      + intros [(c & <- & Hc)|[->|[]]]; [|auto]. right. apply SchemaProofs.collect_In in Hc. destruct Hc as (cs & Hcs & Hc).
        apply in_map_iff in Hcs. destruct Hcs as (a & <- & Ha). apply isort_in, filter_In in Ha. destruct Ha as [Ha Hf].
        exists a. split; auto. split; [now apply frombP|].
        unfold contributing_of in Hc. cbn [csHref c_struct_of] in Hc. destruct (concept_of _) eqn:EC; [|discriminate].
        injection Hc as <-. cbn [ccHref]. split; [apply locates_fun|congruence].
      + intros [->|(a & Ha & Hf & L & N)]; [right; now left|]. left.
        assert (x = map_locator_to_href role lb (caTo a)) as -> by (eapply locates_unique; [exact L|apply locates_fun]).
        destruct (concept_of (map_locator_to_href role lb (caTo a))) as [t|] eqn:EC; [|congruence].
        eexists. split; cycle 1.
        * apply SchemaProofs.collect_In. exists (c_struct_of role lb a). split.
          -- apply in_map. apply isort_in, filter_In. split; auto. now apply frombP.
          -- unfold contributing_of. cbn [csHref c_struct_of]. rewrite EC. reflexivity.
        * reflexivity.
  Qed.
  Lemma source_from from a : In a (lArcs k) -> arc_from role lb from a -> exists slice, In (from, slice) cmap.
  Proof.
    intros Ha Hf. eexists. apply (sget_iff _ _ _ (c_map_is_map role lb (lArcs k))). apply c_map_get. split; [|reflexivity].
    intro C. assert (X : In a (filter (fromb role lb from) (lArcs k))) by (apply filter_In; split; auto; now apply frombP).
    rewrite C in X. destruct X.
  Qed.
  Lemma added_packs from slice added : adds tree lbl concept_of genv entity cmap (from, slice) added ->
    forall p, In p added <-> exists h, p = lbl h /\ row_or_column concept_of insts entity (rows_of from slice) h.
  Proof.
    cbn [adds]. intros (cols & seg & scen & cpacks & E & ->) p. rewrite !in_app_iff.
    assert (CC : forall c, In c (collect (contributing_of lbl concept_of cmap) slice) -> ccLabel c = lbl (ccHref c)).
    { intros c Hc. apply SchemaProofs.collect_In in Hc. destruct Hc as (cs & _ & Hc). unfold contributing_of in Hc.
      destruct (concept_of _); [|discriminate]. injection Hc as <-. reflexivity. }
    split.
    - intros [H|[H|H]].
      + apply in_map_iff in H. destruct H as (c & <- & Hc). exists (ccHref c). split; auto. left. apply in_app_iff. left. now apply in_map.
      + destruct H as [<-|[]]. exists from. split; auto. left. apply in_app_iff. right. now left.
      + apply (column_packs _ _ _ _ _ _ _ _ _ _ _ E) in H. destruct H as (h & i & c & -> & Hi & H). exists h. split; auto.
        right. exists i, c. split; auto. now apply (HI from).
    - intros (h & -> & [H|(i & c & Hi & H)]).
      + apply in_app_iff in H. destruct H as [H|[<-|[]]]; [|right; left; now left]. left. apply in_map_iff in H.
        destruct H as (c & <- & Hc). rewrite <- CC by auto. now apply in_map.
      + right. right. apply (column_packs _ _ _ _ _ _ _ _ _ _ _ E). exists h, i, c. split; auto. split; [now apply (HI from)|auto].
  Qed.
  (** what the sources of [l] use *)
  Definition used_by (l : list (string * list c_struct)) (h : string) : Prop :=
    exists from slice, In (from, slice) l /\ row_or_column concept_of insts entity (rows_of from slice) h.
  Lemma fold_offers l st st' done :
    (forall p, In p (stPacks st) <-> exists h, p = lbl h /\ used_by done h) ->
    (l = [] -> exists n, (stRoles st, stLangs st) = ge_destruct (genv n) (roles_and_langs (stPacks st)) \/
                          (stRoles st, stLangs st, stPacks st) = ([], [], [])) ->
    foldM step l st = Ok st' ->
    (forall p, In p (stPacks st') <-> exists h, p = lbl h /\ used_by (done ++ l) h) /\
    exists n, (stRoles st', stLangs st') = ge_destruct (genv n) (roles_and_langs (stPacks st')) \/
              (stRoles st', stLangs st', stPacks st') = ([], [], []).
  Proof.
    revert st done. induction l as [|[from slice] l IH]; intros st done HP HN; cbn [foldM].
    - intros [= <-]. rewrite app_nil_r. split; auto.
    - destruct (step st (from, slice)) as [st1| |] eqn:E; cbn [bind]; try discriminate. intro H.
      destruct (step_inv _ _ _ _ _ _ _ _ _ E) as (added & HA & HS & HR & _).
      replace (done ++ (from, slice) :: l)%list with ((done ++ [(from, slice)]) ++ l)%list by now rewrite <- app_assoc.
      apply (IH st1 (done ++ [(from, slice)])%list); auto.
      + intro p. rewrite HS, in_app_iff, (HP p), (added_packs _ _ _ HA p). split.
        * intros [(h & -> & f & s & H1 & H2)|(h & -> & H1)]; exists h; (split; [auto|]).
          -- exists f, s. rewrite in_app_iff. auto.
          -- exists from, slice. rewrite in_app_iff. cbn. auto.
        * intros (h & -> & f & s & H1 & H2). apply in_app_iff in H1. destruct H1 as [H1|[[= <- <-]|[]]].
          -- left. exists h. split; auto. exists f, s. auto.
          -- right. exists h. auto.
      + intros _. exists from. left. exact HR.
  Qed.
  Lemma used_sums l h : (forall x, In x l <-> In x cmap) -> used_by l h <-> sums concept_of insts entity role lb k h.
  Proof.
    intro HL. split.
    - intros (from & slice & Hin & H). apply HL in Hin. destruct (source_rows _ _ Hin) as [A B]. exists from, (rows_of from slice). auto.
    - intros (from & rows & (a & Ha & Hf) & SR & H). destruct (source_from _ _ Ha Hf) as (slice & Hin).
      exists from, slice. split; [now apply HL|]. destruct (source_rows _ _ Hin) as [_ B].
      assert (Q : forall x, In x rows <-> In x (rows_of from slice)) by (intro x; rewrite (SR x), (B x); reflexivity).
      destruct H as [H|(i & c & Hi & (f & F1 & F2 & F3) & M)]; [left; now apply Q|]. right. exists i, c. split; auto. split; auto.
      exists f. split; auto. split; auto. now apply Q.
  Qed.
End Sums.
Lemma c_grid_offers tree lbl concept_of genv entity order role lbs insts items roles langs (U' : string -> Prop) :
  (forall h, U' h <-> exists lb k, shown_link role lbs lb k /\ sums concept_of insts entity role lb k h) ->
  (forall h, is_pack (lbl h)) ->
  (forall m, Permutation (order m) m) ->
  (forall from i, In i (ge_instances (genv from)) <-> In i insts) ->
  (forall from x, Permutation (fst (ge_destruct (genv from) x)) (fst x) /\ Permutation (snd (ge_destruct (genv from) x)) (snd x)) ->
  get_summation_items tree lbl concept_of genv entity order role lbs = Ok (items, roles, langs) ->
  (forall r, In r roles <-> exists h, U' h /\ has_role r (lbl h)) /\
  (forall lang, In lang langs -> exists h, U' h /\ speaks (lbl h) lang) /\
  (same_languages lbl U' -> forall h lang, U' h -> speaks (lbl h) lang -> In lang langs).
Proof.
  intros UE' LP HO HI GD. unfold get_summation_items. rewrite calc_link_eq by (intros ? []).
  destruct (first_link role lbs) as [[lb k]|] eqn:FL.
  - cbv zeta. destruct (foldM _ _ _) as [st| |] eqn:E; cbn [bind]; try discriminate. intros [= _ <- <-].
    pose proof (first_link_shown _ _ _ _ FL) as SL.
    assert (UE : forall h, (exists lb k, shown_link role lbs lb k /\ sums concept_of insts entity role lb k h) <->
                   sums concept_of insts entity role lb k h).
    { intro h. split; [|eauto]. intros (lb' & k' & [S1 S2] & H). destruct SL as [T1 T2].
      rewrite (first_such_unique _ _ _ _ S1 T1) in *. now rewrite (first_such_unique _ _ _ _ S2 T2) in H. }
    apply (fold_offers tree lbl concept_of genv entity role insts HI lb k _ _ _ []) in E.
    + destruct E as (HP & n & HR). cbn [app] in HP.
      assert (HP' : forall p, In p (stPacks st) <-> exists h, p = lbl h /\ sums concept_of insts entity role lb k h).
      { intro p. rewrite (HP p). split; intros (h & -> & H); exists h; split; auto; revert H; apply used_sums;
          intro x; split; apply Permutation_in; auto; apply Permutation_sym; auto. }
      assert (R : Permutation (stRoles st) (fst (roles_and_langs (stPacks st))) /\ Permutation (stLangs st) (snd (roles_and_langs (stPacks st)))).
      { destruct HR as [HR|HR].
        - pose proof (GD n (roles_and_langs (stPacks st))) as G. rewrite <- HR in G. exact G.
        - injection HR as -> -> ->. cbn. split; constructor. }
      destruct R as [GR GL]. set (U := fun h => sums concept_of insts entity role lb k h).
      assert (F : from_labels lbl U (stPacks st)) by (intros p Hp; apply HP' in Hp; destruct Hp as (h & -> & H); exists h; auto).
      assert (C : forall h, U h -> In (lbl h) (stPacks st)) by (intros h Uh; apply HP'; eauto).
      assert (UU : forall h, U' h <-> U h) by (intro h; rewrite (UE' h); apply UE).
      split; [|split].
      * intro r. split.
        -- intro H. apply (Permutation_in _ GR) in H. destruct (roles_some _ LP _ _ _ F H) as (h & A & B). exists h. split; auto. now apply UU.
        -- intros (h & Uh & H). apply UU in Uh. apply (Permutation_in _ (Permutation_sym GR)). eapply roles_all; eauto.
      * intros lang H. apply (Permutation_in _ GL) in H. destruct (langs_some _ LP _ _ _ F H) as (h & A & B). exists h. split; auto. now apply UU.
      * intros S h lang Uh H. apply UU in Uh. apply (Permutation_in _ (Permutation_sym GL)).
        eapply (langs_all lbl LP U); eauto. intros x y r l t Ux Uy. apply S; now apply UU.
    + intro p. cbn. split; [intros []|intros (h & _ & f & s & [] & _)].
    + intros _. exists "". right. reflexivity.
  - intros [= _ <- <-].
    assert (N : forall h, ~ U' h).
    { intros h H. apply UE' in H. destruct H as (lb & k & [(l1 & l2 & -> & HN & _) _] & _). clear - FL HN.
      induction l1 as [|l l1 IH]; cbn [app first_link] in FL.
      + apply has_networkP in HN. destruct (if existsb _ _ then _ else _); congruence.
      + destruct (if existsb _ _ then _ else _); [discriminate|auto]. }
    split; [|split].
    + intro r. split; [intros []|intros (h & H & _); exfalso; eapply N; eauto].
    + intros ? [].
    + intros _ h lang H. exfalso. eapply N; eauto.
Qed.

(** ** The definition grid *)
Section Roots.
  Variable tree : list arc -> string -> rarc.
  Variable lbl : string -> label_pack.
  Hypothesis LP : forall h, is_pack (lbl h).
  Variable concept_of : string -> option concept.
  Variable genv : nat -> grid_env.
  Variable dims_order : linkbase darc -> link darc -> list (linkbase darc).
  Variable entity role : string.
  Variable insts : list instance.
  Hypothesis HI : forall n i, In i (ge_instances (genv n)) <-> In i insts.
  Hypothesis GD : forall n x,
    Permutation (fst (ge_destruct (genv n) x)) (fst x) /\ Permutation (snd (ge_destruct (genv n) x)) (snd x).
  Variable U : string -> Prop.
  Notation shows := (in_root_domain concept_of insts entity).

  Definition within (st : d_state) : Prop := forall rd h, In rd (dsRet st) -> shows rd h -> U h.
  Definition offers (st : d_state) : Prop :=
    within st ->
    from_labels lbl U (dsPacks st) /\
    (forall r, In r (dsRoles st) -> exists h, U h /\ has_role r (lbl h)) /\
    (forall lang, In lang (dsLangs st) -> exists h, U h /\ speaks (lbl h) lang) /\
    (forall rd h r, In rd (dsRet st) -> shows rd h -> has_role r (lbl h) -> In r (dsRoles st)) /\
    (same_languages lbl U -> forall rd h lang, In rd (dsRet st) -> shows rd h -> speaks (lbl h) lang -> In lang (dsLangs st)).
  (** the labels of the dimensions of a link have been collected *)
  Definition has_dims (dims : list string) (st : d_state) : Prop :=
    (forall h r, In h dims -> has_role r (lbl h) -> In r (dsRoles st)) /\
    (same_languages lbl U -> forall h lang, In h dims -> speaks (lbl h) lang -> In lang (dsLangs st)).

  Lemma d_root_offers lb w dims st root st' :
    has_dims dims st -> offers st ->
    d_root tree lbl concept_of genv entity role lb w dims st root = Ok st' -> has_dims dims st' /\ offers st'.
  Proof.
    intros [HD1 HD2] OS. unfold d_root. cbv zeta. unfold get_effective_domain_grid. cbv zeta.
    destruct (get_relevant_contexts _ _ _ _ _ _ _) as [[[[cols seg] scen] cpacks]| |] eqn:E1; cbn [bind]; try discriminate.
    destruct (get_member_grid _ _ _ _) as [[members void]| |] eqn:E2; cbn [bind]; try discriminate.
    set (items := map _ (listing root 0)) in *.
    set (rootHref := map_locator_to_href role lb (ra_locator root)) in *.
    set (own := (map ilLabel items ++ _)%list).
    pose proof (GD (List.length (dsRet st)) (roles_and_langs (dsPacks st ++ own))) as [GR GL].
    destruct (ge_destruct _ _) as [roles langs]. cbn [fst snd] in GR, GL.
    destruct (get_factual_quadrant _ _ _ _ _ _ _) as [[[facts fgrid] notes]| |] eqn:E3; cbn [bind]; try discriminate.
    set (rd := RootDomain _ _ _ _ _ _ _ _ _ _ _). intros [= <-].
    split.
    { split; cbn [dsRoles dsLangs]; [intros h r A B|intros S h lang A B]; apply in_app_iff; left; [eauto|eapply HD2; eauto]. }
    assert (IL : forall i, In i items -> ilLabel i = lbl (ilHref i)).
    { intros i Hi. apply in_map_iff in Hi. destruct Hi as (y & <- & _). reflexivity. }
    (* the labels of the root domain, but for the dimensions *)
    assert (OWN : forall p, In p own <-> exists h, p = lbl h /\
       (row_or_column concept_of insts entity (rootHref :: map ilHref items) h \/
        exists row domain e, In row (rdDomains rd) /\ In domain row /\ In e domain /\ emDefault e = true /\ emHref e = h)).
    { intro p. unfold own. rewrite !in_app_iff. split.
      - intros [H|[H|[H|H]]].
        + apply in_map_iff in H. destruct H as (i & <- & Hi). exists (ilHref i). split; [now apply IL|]. left. left. right. now apply in_map.
        + apply in_flat_map in H. destruct H as (i & Hi & H). apply in_flat_map in H. destruct H as (d & Hd & H).
          apply effective_defaults in H. destruct H as (e & He & Df & ->). exists (emHref e). split; auto. right.
          exists (map (fun d => fst (get_effective_domain (map_locator_to_href role lb) lbl w i d)) dims).
          exists (fst (get_effective_domain (map_locator_to_href role lb) lbl w i d)), e.
          split; [exact (in_map (fun i => map (fun d => fst (get_effective_domain (map_locator_to_href role lb) lbl w i d)) dims) _ _ Hi)|].
          split; [exact (in_map (fun d => fst (get_effective_domain (map_locator_to_href role lb) lbl w i d)) _ _ Hd)|auto].
        + apply (column_packs _ _ _ _ _ _ _ _ _ _ _ E1) in H. destruct H as (h & i & c & -> & Hi & H). exists h. split; auto.
          left. right. exists i, c. split; auto. now apply (HI (List.length (dsRet st))).
        + destruct H as [<-|[]]. exists rootHref. split; auto. left. left. now left.
      - intros (h & -> & [[H|(i & c & Hi & H)]|(row & dom & e & H1 & H2 & H3 & H4 & <-)]).
        + destruct H as [<-|H]; [right; right; right; now left|]. left. apply in_map_iff in H. destruct H as (i & <- & Hi).
          rewrite <- IL by auto. now apply in_map.
        + right. right. left. apply (column_packs _ _ _ _ _ _ _ _ _ _ _ E1). exists h, i, c. split; auto. split; auto.
          now apply (HI (List.length (dsRet st))).
        + right. left. cbn [rdDomains rd] in H1. apply in_map_iff in H1. destruct H1 as (i & <- & Hi).
          apply in_map_iff in H2. destruct H2 as (d & <- & Hd). apply in_flat_map. exists i. split; auto. apply in_flat_map.
          exists d. split; auto. apply effective_defaults. eauto. }
    assert (SH : forall h, shows rd h <-> In h dims \/
       (row_or_column concept_of insts entity (rootHref :: map ilHref items) h \/
        exists row domain e, In row (rdDomains rd) /\ In domain row /\ In e domain /\ emDefault e = true /\ emHref e = h)).
    { intro h. unfold in_root_domain. change (rdHref rd) with rootHref. change (rdItems rd) with items.
      assert (DM : (exists d, In d (rdDimensions rd) /\ lbHref d = h) <-> In h dims).
      { change (rdDimensions rd) with (map (fun h => Labelled h (lbl h)) dims). split.
        - intros (d & Hd & <-). apply in_map_iff in Hd. destruct Hd as (x & <- & Hx). exact Hx.
        - intro H. exists (Labelled h (lbl h)). split; auto. exact (in_map (fun h => Labelled h (lbl h)) _ _ H). }
      rewrite DM. tauto. }
    clearbody rd own. intro W.
    assert (W0 : within st). { intros r h Hr. apply W. cbn [dsRet]. apply in_app_iff. now left. }
    assert (WR : forall h, shows rd h -> U h). { intro h. apply W. cbn [dsRet]. apply in_app_iff. right. now left. }
    destruct (OS W0) as (FS & RS & LS & RC & LC). cbn [dsPacks dsRoles dsLangs dsRet] in *.
    assert (F : from_labels lbl U (dsPacks st ++ own)).
    { intros p Hp. apply in_app_iff in Hp. destruct Hp as [Hp|Hp]; auto. apply OWN in Hp. destruct Hp as (h & -> & H).
      exists h. split; auto. apply WR, SH. auto. }
    split; [exact F|]. split; [|split; [|split]].
    - intros r H. apply in_app_iff in H. destruct H as [H|H]; auto. apply (Permutation_in _ GR) in H. eapply roles_some; eauto.
    - intros lang H. apply in_app_iff in H. destruct H as [H|H]; auto. apply (Permutation_in _ GL) in H. eapply langs_some; eauto.
    - intros r h x Hr Hh Hx. apply in_app_iff. apply in_app_iff in Hr. destruct Hr as [Hr|[<-|[]]]; [left; eapply RC; eauto|].
      apply SH in Hh. destruct Hh as [Hh|Hh]; [left; eauto|]. right. apply (Permutation_in _ (Permutation_sym GR)).
      eapply roles_all; eauto. apply in_app_iff. right. apply OWN. eauto.
    - intros S r h lang Hr Hh Hl. apply in_app_iff. apply in_app_iff in Hr. destruct Hr as [Hr|[<-|[]]]; [left; eapply LC; eauto|].
      pose proof (WR h Hh) as Uh.
      apply SH in Hh. destruct Hh as [Hh|Hh]; [left; eapply HD2; eauto|]. right. apply (Permutation_in _ (Permutation_sym GL)).
      eapply langs_all; eauto. apply in_app_iff. right. apply OWN. eauto.
  Qed.
  Lemma d_link_offers lb st k st' :
    (forall h, In h (dimension_hrefs role (lArcs k) (dims_order lb k)) -> U h) -> offers st ->
    d_link tree lbl concept_of genv dims_order entity role lb st k = Ok st' -> offers st'.
  Proof.
    intros DU OS. unfold d_link. cbv zeta. set (dims := dimension_hrefs _ _ _) in *.
    pose proof (GD (List.length (dsRet st)) (roles_and_langs (map lbl dims))) as [GR GL].
    destruct (ge_destruct _ _) as [rs ls]. cbn [fst snd] in GR, GL. destruct (link_networks tree k) as [primary w].
    assert (F : from_labels lbl U (map lbl dims)).
    { intros p Hp. apply in_map_iff in Hp. destruct Hp as (h & <- & Hh). eauto. }
    set (s0 := DState _ _ _ _).
    assert (D0 : has_dims dims s0).
    { split; cbn [dsRoles dsLangs s0]; [intros h r A B|intros S h lang A B]; apply in_app_iff; right.
      - apply (Permutation_in _ (Permutation_sym GR)). eapply roles_all; eauto. now apply in_map.
      - apply (Permutation_in _ (Permutation_sym GL)). eapply langs_all; eauto. now apply in_map. }
    assert (O0 : offers s0).
    { intro W. destruct (OS W) as (FS & RS & LS & RC & LC). cbn [dsPacks dsRoles dsLangs dsRet s0]. split; auto. split; [|split; [|split]].
      - intros r H. apply in_app_iff in H. destruct H as [H|H]; auto. apply (Permutation_in _ GR) in H. exact (roles_some lbl LP U _ _ F H).
      - intros r H. apply in_app_iff in H. destruct H as [H|H]; auto. apply (Permutation_in _ GL) in H. exact (langs_some lbl LP U _ _ F H).
      - intros rd h r A B C. apply in_app_iff. left. eapply RC; eauto.
      - intros S rd h lang A B C. apply in_app_iff. left. eapply LC; eauto. }
    clearbody s0. revert s0 D0 O0. induction primary as [|x l IH]; intros s0 D0 O0; cbn [foldM]; [now intros [= <-]|].
    destruct (d_root _ _ _ _ _ _ _ _ _ _ _) as [s1| |] eqn:E1; cbn [bind]; try discriminate.
    destruct (d_root_offers _ _ _ _ _ _ D0 O0 E1) as [D1 O1]. now apply IH.
  Qed.
  Lemma root_domains_offer lbs rds roles langs :
    (forall lb k h, In lb lbs -> In k (role_links role lb) -> In h (dimension_hrefs role (lArcs k) (dims_order lb k)) -> U h) ->
    (forall rd h, In rd rds -> shows rd h -> U h) ->
    get_root_domains tree lbl concept_of genv dims_order entity role lbs = Ok (rds, roles, langs) ->
    (forall r, In r roles -> exists h, U h /\ has_role r (lbl h)) /\
    (forall lang, In lang langs -> exists h, U h /\ speaks (lbl h) lang) /\
    (forall rd h r, In rd rds -> shows rd h -> has_role r (lbl h) -> In r roles) /\
    (same_languages lbl U -> forall rd h lang, In rd rds -> shows rd h -> speaks (lbl h) lang -> In lang langs).
  Proof.
    intros DU. unfold get_root_domains.
    destruct (foldM _ lbs _) as [st| |] eqn:E; cbn [bind]; try discriminate. intros W [= <- <- <-].
    assert (O : offers st).
    { assert (FO : forall B (f : d_state -> B -> res d_state) l s s',
        (forall s x s', In x l -> offers s -> f s x = Ok s' -> offers s') -> offers s -> foldM f l s = Ok s' -> offers s').
      { intros B f l. induction l as [|x l IH]; intros s s' ST O; cbn [foldM]; [now intros [= <-]|].
        destruct (f s x) as [s1| |] eqn:Q; cbn [bind]; try discriminate. apply IH; [intros; eapply ST; eauto; now right|].
        eapply ST; eauto. now left. }
      revert E. apply FO.
      - intros s lb s' Hlb O. apply FO; [|exact O]. intros s1 k s2 Hk O1. apply d_link_offers; [|exact O1]. intros h. exact (DU lb k h Hlb Hk).
      - intros _. cbn. repeat split; try (now intros ? []); try (now intros ? ? ? []). }
    destruct (O W) as (_ & A & B & C & D). auto.
  Qed.
End Roots.
