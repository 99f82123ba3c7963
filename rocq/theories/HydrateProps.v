(** * HydrateProps: C72, C79, C83 *)
From Verif Require Import GoBase GoSpec GoFacts AttrModel AttrSpec AttrProofs SchemaModel LinkbaseModel InstanceModel
  HydrateModel HydrateSpec HydrateProofs.
Local Open Scope string_scope.

(** C72. If all inline facts conform, then under every schedule the outcome is the
    same complete document. *)
Theorem C72_same_maps :
  forall s np r, new_name_provider (dsHtml s) = Ok np ->
    (forall node, In node (dsNonNumerics s ++ dsNonFractions s)%list -> conforming (dsHtml s) node) ->
    hydrate_document (Some s) r -> exists d, r = Ok (Some d) /\ describes s d.
Proof.
  intros s np r Hnp HC HD.
  assert (B : forall node, In node (dsNonNumerics s ++ dsNonFractions s)%list -> exists k x z, doc_body np node = EPut k x z).
  { intros node Hn. destruct (HC node Hn) as (k&x&c&F). exists k, x, c. now apply (body_put_iff (dsHtml s)). }
  assert (C0 : consistent np []) by (intros ? ?; discriminate).
  assert (T0 : only_true []) by (intros ? ?; discriminate).
  inversion HD as [|s0 P|s0 m P|s0 np0 P P1|s0 np0 m P P1|s0 np0 n c P P1 P2|s0 np0 n c m P P1 P2|s0 np0 n c n' c' P P1 P2]; subst;
    try congruence; assert (np0 = np) by congruence; subst np0.
  - apply phase_panic_from in P1 as (a&Ha&E). destruct (B a) as (?&?&?&?); [apply in_or_app; auto|congruence].
  - apply phase_err_from in P1 as (a&Ha&E). destruct (B a) as (?&?&?&?); [apply in_or_app; auto|congruence].
  - apply phase_panic_from in P2 as (a&Ha&E). destruct (B a) as (?&?&?&?); [apply in_or_app; auto|congruence].
  - apply phase_err_from in P2 as (a&Ha&E). destruct (B a) as (?&?&?&?); [apply in_or_app; auto|congruence].
  - destruct (phase_ok_maps np _ _ _ _ _ P1 C0 T0) as (_&C1&T1&M1&M2).
    destruct (phase_ok_maps np _ _ _ _ _ P2 C1 T1) as (_&C2&T2&M3&M4).
    eexists. split; [reflexivity|]. split; cbn [docNames docContexts].
    + intros k x. rewrite M3, M1. split.
      * intros [[Z|(a&z&Ha&E)]|(a&z&Ha&E)]; [discriminate| |]; exists a, z;
          (split; [apply in_or_app; auto|now apply (body_put_iff (dsHtml s) np)]).
      * intros (a&z&Ha&E). apply (body_put_iff _ np) in E; auto.
        apply in_app_or in Ha as [Ha|Ha]; [left; right|right]; eauto.
    + intros z b. split.
      * intros Z. assert (b = true) as -> by (eapply T2; eauto). split; auto.
        apply M4 in Z as [Z|(a&k&x&Ha&E)].
        -- apply M2 in Z as [Z|(a&k&x&Ha&E)]; [discriminate|]. exists a, k, x.
           split; [apply in_or_app; auto|now apply (body_put_iff (dsHtml s) np)].
        -- exists a, k, x. split; [apply in_or_app; auto|now apply (body_put_iff (dsHtml s) np)].
      * intros [-> (a&k&x&Ha&E)]. apply M4. apply (body_put_iff _ np) in E; auto.
        apply in_app_or in Ha as [Ha|Ha]; [left; apply M2; right|right]; eauto.
Qed.
Print Assumptions C72_same_maps.

(** If some fact has an undeclared prefix and the others conform, every schedule
    gives an error, never a document. *)
Theorem C72_error :
  forall s np r, new_name_provider (dsHtml s) = Ok np ->
    (forall node, In node (dsNonNumerics s ++ dsNonFractions s)%list ->
       conforming (dsHtml s) node \/ unresolved (dsHtml s) node) ->
    (exists node, In node (dsNonNumerics s ++ dsNonFractions s)%list /\ unresolved (dsHtml s) node) ->
    hydrate_document (Some s) r -> exists m, r = Err m.
Proof.
  intros s np r Hnp HC (bad&Hbad&U) HD.
  assert (B : forall node, In node (dsNonNumerics s ++ dsNonFractions s)%list -> doc_body np node <> ECrash).
  { intros node Hn. destruct (HC node Hn) as [(k&x&c&F)|Un].
    - apply (body_put_iff _ np) in F; auto. congruence.
    - apply (body_fail _ np) in Un as [m E]; auto. congruence. }
  apply (body_fail _ np) in U as [m0 U]; auto.
  assert (C0 : consistent np []) by (intros ? ?; discriminate).
  assert (T0 : only_true []) by (intros ? ?; discriminate).
  inversion HD as [|s0 P|s0 m P|s0 np0 P P1|s0 np0 m P P1|s0 np0 n c P P1 P2|s0 np0 n c m P P1 P2|s0 np0 n c n' c' P P1 P2]; subst;
    try congruence; eauto; assert (np0 = np) by congruence; subst np0.
  - apply phase_panic_from in P1 as (a&Ha&E). destruct (B a); [apply in_or_app; auto|auto].
  - apply phase_panic_from in P2 as (a&Ha&E). destruct (B a); [apply in_or_app; auto|auto].
  - destruct (phase_ok_maps np _ _ _ _ _ P1 C0 T0) as (X1&C1&T1&_&_).
    destruct (phase_ok_maps np _ _ _ _ _ P2 C1 T1) as (X2&_).
    apply in_app_or in Hbad as [Hb|Hb]; [destruct (X1 _ Hb) as (?&?&?&?)|destruct (X2 _ Hb) as (?&?&?&?)]; congruence.
Qed.
Print Assumptions C72_error.

(** There is an outcome: no schedule is stuck and every step takes the goroutines
    closer to the end. *)
Theorem C72_terminates :
  (forall src, exists r, hydrate_document src r) /\
  (forall np c, all_done c \/ exists r, dstep np c r) /\
  (forall np, exists size : dconf -> nat, forall c c', dstep np c (Some c') -> (size c' < size c)%nat).
Proof.
  split; [|split].
  - intros [s|]; [|exists (Ok None); constructor].
    destruct (new_name_provider (dsHtml s)) as [np|m|] eqn:E.
    + destruct (phase_exists np (dsNonNumerics s) [] []) as [[[n c]|m|] P1].
      * destruct (phase_exists np (dsNonFractions s) n c) as [[[n' c']|m|] P2]; eexists.
        -- eapply doc_ok; eauto.
        -- eapply doc_second_err; eauto.
        -- eapply doc_second_crash; eauto.
      * eexists. eapply doc_first_err; eauto.
      * eexists. eapply doc_first_crash; eauto.
    + exists (Err m). now apply doc_provider_err.
    + exists Panic. now apply doc_provider.
  - intros. apply progress.
  - intros np. exists dsize. intros; eapply dstep_decreases; eauto.
Qed.
Print Assumptions C72_terminates.

Definition xa (n v : string) : qattr := QAttr (XName "" n) v "".
Definition ex_html : list qattr := [QAttr (XName "xmlns" "us-gaap") "urn:gaap" "xmlns"].
Definition ex_ix (k c : string) : list qattr := [xa "id" "f1"; xa "name" k; xa "contextRef" c].
Example C72_example :
  conforming ex_html (ex_ix "us-gaap:Assets" "c1") /\ unresolved ex_html (ex_ix "dei:Name" "c1") /\
  exists np, new_name_provider ex_html = Ok np.
Proof.
  repeat split.
  - exists "us-gaap:Assets", (XName "urn:gaap" "Assets"), "c1".
    repeat split; [apply find_attr_of; eexists; split; reflexivity|apply find_attr_of; eexists; split; reflexivity|].
    exists "us-gaap", "Assets", "urn:gaap". repeat split; try discriminate.
    eexists. split; [exists [], []; repeat split; auto|reflexivity].
  - exists "dei", "Name". repeat split; try discriminate.
    + apply find_attr_of. eexists; split; reflexivity.
    + intros a [<-|[]] [_ H]. discriminate.
  - eexists. reflexivity.
Qed.

(** C83. Refuted: a fact without contextRef, or with an unprefixed name, crashes
    the process whatever the schedule. *)
Theorem C83_malformed_inline_fact_refuted :
  ~ (forall s np, new_name_provider (dsHtml s) = Ok np -> ~ hydrate_document (Some s) Panic) /\
  (forall s np node, new_name_provider (dsHtml s) = Ok np -> dsNonNumerics s = [node] ->
     (attr_of node "name" "Assets" \/ (forall v, ~ attr_of node "name" v)) ->
     forall r, hydrate_document (Some s) r -> r = Panic).
Proof.
  assert (K : forall s np node, new_name_provider (dsHtml s) = Ok np -> dsNonNumerics s = [node] ->
     (attr_of node "name" "Assets" \/ (forall v, ~ attr_of node "name" v)) ->
     forall r, hydrate_document (Some s) r -> r = Panic).
  { intros s np node Hnp E1 N r HD.
    assert (B : doc_body np node = ECrash).
    { unfold doc_body. destruct N as [N|N].
      - apply find_attr_of in N as (a&->&->). reflexivity.
      - destruct (find_xpath_attr node "name") as [a|] eqn:F; auto.
        exfalso. apply (N (qvalue a)), find_attr_of. eauto. }
    assert (C0 : consistent np []) by (intros ? ?; discriminate).
    assert (T0 : only_true []) by (intros ? ?; discriminate).
    assert (F : forall m, ~ phase np (dsNonNumerics s) [] [] (Err m)).
    { intros m P. apply phase_err_from in P as (a&Ha&E). rewrite E1 in Ha. destruct Ha as [<-|[]]. congruence. }
    assert (G : forall n c, ~ phase np (dsNonNumerics s) [] [] (Ok (n, c))).
    { intros n c P. destruct (phase_ok_maps np _ _ _ _ _ P C0 T0) as (X&_). rewrite E1 in X.
      destruct (X node (or_introl eq_refl)) as (?&?&?&?). congruence. }
    inversion HD as [|s0 P|s0 m P|s0 np0 P P1|s0 np0 m P P1|s0 np0 n c P P1 P2|s0 np0 n c m P P1 P2|s0 np0 n c n' c' P P1 P2]; subst;
      try congruence; assert (np0 = np) by congruence; subst np0.
    - now apply F in P1. - now apply G in P1. - now apply G in P1. }
  split; auto. intro H.
  set (s := DocSource ex_html [ex_ix "Assets" "c1"] []).
  destruct (new_name_provider ex_html) as [np|m|] eqn:E; try discriminate E.
  apply (H s np E). destruct (proj1 C72_terminates (Some s)) as [r R].
  assert (r = Panic) as <-; auto. eapply (K s np (ex_ix "Assets" "c1") E); auto.
  left. apply find_attr_of. eexists; split; reflexivity.
Qed.
Print Assumptions C83_malformed_inline_fact_refuted.
(** Facts that have both attributes and a prefixed name never crash it. Missing:
    the malformed ones. *)
Theorem C83_no_crash_partial :
  forall s np r, new_name_provider (dsHtml s) = Ok np ->
    (forall node, In node (dsNonNumerics s ++ dsNonFractions s)%list ->
       conforming (dsHtml s) node \/ unresolved (dsHtml s) node) ->
    hydrate_document (Some s) r -> r <> Panic.
Proof.
  intros s np r Hnp HC HD ->.
  assert (B : forall node, In node (dsNonNumerics s ++ dsNonFractions s)%list -> doc_body np node <> ECrash).
  { intros node Hn. destruct (HC node Hn) as [(k&x&c&F)|Un].
    - apply (body_put_iff _ np) in F; auto. congruence.
    - apply (body_fail _ np) in Un as [m E]; auto. congruence. }
  inversion HD as [|s0 P| |s0 np0 P P1| |s0 np0 n c P P1 P2| | ]; subst;
    try congruence; assert (np0 = np) by congruence; subst np0.
  - apply phase_panic_from in P1 as (a&Ha&E). destruct (B a); [apply in_or_app; auto|auto].
  - apply phase_panic_from in P2 as (a&Ha&E). destruct (B a); [apply in_or_app; auto|auto].
Qed.
Print Assumptions C83_no_crash_partial.

(** C79. Loading is all or nothing: a result has every file of every kind loaded,
    in whatever order the maps are visited; an error comes from a part that fails. *)
Theorem C79_complete :
  forall pf sh is_url discover tokens utr doc f h,
    hydrate pf sh is_url discover tokens utr doc f = Ok h <->
    hFolder h = f /\
    all_loaded hydrate_schema (fdSchemas f) (hSchemas h) /\
    all_loaded (fun x n => hydrate_linkbase (hydrate_parc pf) (shP sh n) x n) (fdPresentation f) (hPresentation h) /\
    all_loaded (fun x n => hydrate_linkbase (hydrate_darc pf) (shD sh n) x n) (fdDefinition f) (hDefinition h) /\
    all_loaded (fun x n => hydrate_linkbase (hydrate_carc pf) (shC sh n) x n) (fdCalculation f) (hCalculation h) /\
    all_loaded (hydrate_label_linkbase pf) (fdLabel f) (hLabel h) /\
    all_loaded (hydrate_instance (env_of f is_url discover) tokens) (fdInstances f) (hInstances h) /\
    utr = Ok (hRegistry h) /\ doc = Ok (hDocument h).
Proof.
  intros. rewrite <- !hydrate_each_ok. unfold hydrate. split.
  - repeat match goal with |- context [do x <- ?e; _] =>
      let E := fresh "E" in destruct e as [?|?|] eqn:E; cbn [bind]; try discriminate end.
    intro H; injection H; intros <-. cbn. auto 10.
  - intros (<-&->&->&->&->&->&->&->&->). cbn [bind]. destruct h; reflexivity.
Qed.
Print Assumptions C79_complete.
Theorem C79_error_from_a_part :
  forall pf sh is_url discover tokens utr doc f m,
    hydrate pf sh is_url discover tokens utr doc f = Err m ->
    some_fails hydrate_schema (fdSchemas f) (Err m) \/
    some_fails (fun x n => hydrate_linkbase (hydrate_parc pf) (shP sh n) x n) (fdPresentation f) (Err m) \/
    some_fails (fun x n => hydrate_linkbase (hydrate_darc pf) (shD sh n) x n) (fdDefinition f) (Err m) \/
    some_fails (fun x n => hydrate_linkbase (hydrate_carc pf) (shC sh n) x n) (fdCalculation f) (Err m) \/
    some_fails (hydrate_label_linkbase pf) (fdLabel f) (Err m) \/
    some_fails (hydrate_instance (env_of f is_url discover) tokens) (fdInstances f) (Err m) \/
    utr = Err m \/ doc = Err m.
Proof.
  intros until m. unfold hydrate.
  destruct (hydrate_each hydrate_schema _) eqn:E1; cbn [bind]; [|intro H; injection H; intros <-; auto using hydrate_each_err|discriminate].
  destruct (hydrate_each _ (fdPresentation f)) eqn:E2; cbn [bind]; [|intro H; injection H; intros <-; auto using hydrate_each_err|discriminate].
  destruct (hydrate_each _ (fdDefinition f)) eqn:E3; cbn [bind]; [|intro H; injection H; intros <-; auto using hydrate_each_err|discriminate].
  destruct (hydrate_each _ (fdCalculation f)) eqn:E4; cbn [bind]; [|intro H; injection H; intros <-; auto 6 using hydrate_each_err|discriminate].
  destruct (hydrate_each _ (fdLabel f)) eqn:E5; cbn [bind]; [|intro H; injection H; intros <-; auto 7 using hydrate_each_err|discriminate].
  destruct (hydrate_each _ (fdInstances f)) eqn:E6; cbn [bind]; [|intro H; injection H; intros <-; auto 8 using hydrate_each_err|discriminate].
  destruct utr; cbn [bind]; [|intro H; injection H; intros <-; auto 9|discriminate].
  destruct doc; cbn [bind]; [discriminate|intro H; injection H; intros <-; auto 9|discriminate].
Qed.
Print Assumptions C79_error_from_a_part.
Example C79_example :
  exists h, hydrate (fun _ => (S754_zero false, false)) (Shuffles (fun _ l => l) (fun _ l => l) (fun _ l => l))
    (fun _ => false) (fun _ => Err "offline") (fun _ => []) (Ok []) (Ok None)
    (Folder "i.xml" [] [("t.xsd", empty_schema_file)] [("p.xml", LinkbaseFile [] [])] [] [] [] [("i.xml", InstanceFile [] [] [] [] [] [])] None)
    = Ok h /\ map fst (hSchemas h) = ["t.xsd"] /\ map fst (hPresentation h) = ["p.xml"] /\ map fst (hInstances h) = ["i.xml"].
Proof. eexists. repeat split; reflexivity. Qed.
