(** * ChangeProps: theorems about a server whose files change while it runs

    C153: an idle server shows the pages it has shown, whatever happens to the files; and all
    pages of a folder come from one reading of it. The [services] are arbitrary here: what
    Discover, Hydrate, ... return at one time says nothing about what they return at another. *)
From Coq Require Import Strings.String Lists.List Bool Lia.
From Verif Require Import GoBase GoSpec CatalogModel CacheModel CacheSpec CacheProofs CacheProps ChangeSpec ChangeProofs.
From Verif Require Import WebModel RouterModel ServerModel ChangeModel.
From Verif Require SchemaModel InstanceModel.
Import ListNotations.
Local Open Scope string_scope.
Notation run := CacheModel.run.
Notation services := CacheModel.services.

Section Run.
  Context {F H S N U : Type} (sv : services F H S N U) (injected : bool).
  Lemma ended_stays s s' : run sv false injected s s' -> up s \/ s' = s.
  Proof.
    destruct (up_dec s) as [Up|E]; [now left|]. intros R. right. induction R as [s|s s1 s2 R IH St]; auto. specialize (IH E). subst s1.
    exfalso. destruct St as [s s2 Up _|c m ts q Up]; eapply up_not_ended; eauto.
  Qed.
  Lemma separate_before s s' : run sv false injected s s' -> separate (requests s') -> separate (requests s).
  Proof. intros R Sp q1 q2 a b I1 I2. apply Sp; eapply run_requests; eauto. Qed.
  Lemma settled_rest c m ts : settled ts -> at_rest (State (hyd := H) (schema := S) (names := N) (utr := U) c m ts).
  Proof.
    intros St s' _ G. unfold settled in St. rewrite Forall_forall in St.
    inversion G; subst; match goal with E : context [(?q, ?g) :: _] |- _ => idtac end;
      match type of St with forall x, In x (?a ++ (?q, ?g) :: ?b)%list -> _ =>
        destruct (St (q, g)) as [E|(r & E)]; [apply in_or_app; right; now left|discriminate E|discriminate E] end.
  Qed.
End Run.

(** ** A page that has been shown stays

    The server is idle in [s] and all answers to [q] so far have been the same content. In
    every later state every answer to [q] is that content. *)
Theorem C153_kept_partial : forall (F H S N U : Type) (sv : services F H S N U) injected s s' q b,
  run sv false injected (initial []) s -> at_rest s -> run sv false injected s s' -> separate (requests s') ->
  of_folder q -> answered s q (Ok (VBytes b)) -> (forall r, answered s q r -> r = Ok (VBytes b)) ->
  forall r, answered s' q r -> r = Ok (VBytes b).
Proof.
  intros F H S N U sv injected s s' q b R0 Re R1 Sp O A Un r A'.
  destruct (ended_stays sv injected s s' R1) as [Up|Es]; [|subst s'; now apply Un].
  pose proof (separate_before sv injected s s' R1 Sp) as Sp0.
  destruct (answers_later sv injected s s' R0 Re Up R1 Sp q r O A') as [B|[Fr _]]; [now apply Un|].
  destruct (page_stored sv injected s q b R0 Sp0 Re Up O A) as [(x & Ex & r0 & A0 & X) K].
  rewrite (Fr x Ex K). apply Un in A0. subst r0. destruct X as [[= ->]|[_ [m [=]]]]. reflexivity.
Qed.
Print Assumptions C153_kept_partial.

(** ** All pages of a folder come from one reading of it

    One request about the folder has been made and answered with content, and the server is
    idle; requests about other folders do not matter. Then there is one load [h] of the folder
    that this answer and all later answers about it are taken from. *)
Theorem C153_one_load_partial : forall (F H S N U : Type) (sv : services F H S N U) injected s s' id q b,
  run sv false injected (initial []) s -> at_rest s -> run sv false injected s s' -> separate (requests s') ->
  asked_about s id [q] -> answered s q (Ok (VBytes b)) ->
  exists h, hydrated sv id (Ok h) /\ forall q' r, about id q' -> answered s' q' r -> shown sv h q' r.
Proof.
  intros F H S N U sv injected s s' id q b R0 Re R1 Sp (keep & Kp & Fi) A.
  pose proof (separate_before sv injected s s' R1 Sp) as Sp0.
  assert (Iq : In q (requests s)) by (unfold requests; apply in_flat_map; eexists; split; [exact A|now left]).
  assert (Ab : about id q).
  { apply Kp. assert (X : In q (filter keep (requests s))) by (rewrite Fi; now left). now apply filter_In in X. }
  assert (O : of_folder q) by (destruct q; cbn in *; tauto).
  assert (Ei : id = fid q) by (destruct q; cbn in *; intuition congruence). subst id.
  assert (Si : single q keep s) by (now right).
  destruct (one_load sv injected (requests s) Sp0 q O Iq keep Kp s b R0 (fun _ X => X) Si A) as (h & Sh & Kn & Hid & Hpg).
  assert (Old : forall r, answered s q r -> shown sv h q r).
  { intros r Ar. now rewrite (one_answer (requests s) q O Iq keep Kp s b r Si A Ar). }
  assert (Only : forall q' r, about (fid q) q' -> answered s q' r -> q' = q).
  { intros q' r Aq' Ar. assert (X : In q' (filter keep (requests s))).
    { apply filter_In. split; [unfold requests; apply in_flat_map; eexists; split; [exact Ar|now left]|now apply Kp]. }
    rewrite Fi in X. destruct X as [->|[]]. reflexivity. }
  destruct (ended_stays sv injected s s' R1) as [Up|Es].
  - destruct (rest_idle sv injected s R0 Sp0 Re Up) as ((Hc & _) & Id).
    destruct (idle_stored s _ Id Kn) as [v Ev]. pose proof (Hid v (or_introl (get_In _ _ _ Ev))) as ->.
    exists h. split.
    + pose proof (get_In _ _ _ Ev) as Iv. destruct (Hc _ _ Iv) as (q2 & a2 & I2 & Ia2 & K & Ho).
      rewrite <- (Sp0 q q2 (ResFolder (fid q)) a2 Iq I2 (fid_in q O) Ia2 (eq_sym K)) in Ho. cbn in Ho. destruct Ho as [(h' & [= <-] & Y)|[[=] _]]. exact Y.
    + intros q' r Ab' A'. assert (O' : of_folder q') by (destruct q'; cbn in *; tauto).
      assert (Ef : fid q' = fid q) by (destruct q'; cbn in *; intuition congruence).
      destruct (answers_later sv injected s s' R0 Re Up R1 Sp q' r O' A') as [B|[Fr1 Fr2]].
      { pose proof (Only q' r Ab' B). subst q'. now apply Old. }
      destruct (mget String.eqb (page q') (stored s)) as [v|] eqn:Ep; [|now apply Fr2; [reflexivity|rewrite Ef]].
      destruct (run_pinv sv injected _ _ R0 (pinv_initial)) as (_ & HO & _).
      assert (Iq' : In q' (requests s')).
      { unfold requests. apply in_flat_map. eexists. split; [exact A'|now left]. }
      assert (X : exists x, v = VBytes x).
      { pose proof (get_In _ _ _ Ep) as Iv. destruct (Hc _ _ Iv) as (q2 & a2 & I2 & Ia2 & K & Ho).
        rewrite <- (page_key q' O') in K.
        rewrite <- (Sp q' q2 (page_res q') a2 Iq' (run_requests _ _ _ _ _ R1 _ I2) (page_in q' O') Ia2 (eq_sym K)) in Ho.
        destruct q'; cbn in O', Ho; try contradiction; destruct Ho as (h0 & _ & Ho); now apply kept_bytes in Ho. }
      destruct X as [x ->].
      assert (r = Ok (VBytes x)) as -> by (apply Fr1; auto; destruct q'; auto; rewrite Ef; eauto).
      destruct (HO _ _ (or_introl (get_In _ _ _ Ep))) as (q2 & r2 & O2 & E2 & A2 & _).
      assert (I2 : In q2 (requests s)) by (unfold requests; apply in_flat_map; eexists; split; [exact A2|now left]).
      assert (q' = q2).
      { apply page_res_inj; auto. apply (Sp q' q2); auto using page_in; [now apply (run_requests sv false injected s s' R1)|]. now rewrite !page_key. }
      subst q2. pose proof (Only q' r2 Ab' A2). subst q'.
      destruct (Hpg _ (or_introl (get_In _ _ _ Ep))) as (x' & [= <-] & Sx). exact Sx.
  - subst s'. destruct Sh as (a & Ta & X).
    assert (Hy : exists h', hydrated sv (fid q) (Ok h') /\ h' = h).
    { assert (Hi : inv sv false injected (legal sv (requests s)) s).
      { apply (run_inv sv false injected _ (initial []) s); [intros q1 Hq; now apply wok_program|exact R0|split; [contradiction|constructor]]. }
      destruct Hi as [Hc Ht]. destruct Kn as [v Iv]. pose proof (Hid v Iv) as ->.
      assert (Lv : legal sv (requests s) (fid q) (VHyd (Some h))).
      { destruct Iv as [Iv|([q1 g1] & It & Wr)]; [now apply Hc|]. rewrite Forall_forall in Ht. destruct (Ht _ It) as [W0 _].
        cbn in W0, Wr. destruct g1; cbn in Wr, W0; try contradiction; destruct Wr as [-> ->]; exact W0. }
      destruct Lv as (q2 & a2 & I2 & Ia2 & K & Ho).
      rewrite <- (Sp0 q q2 (ResFolder (fid q)) a2 Iq I2 (fid_in q O) Ia2 (eq_sym K)) in Ho. cbn in Ho. destruct Ho as [(h' & [= <-] & Y)|[[=] _]]. eauto. }
    destruct Hy as (h' & Hy & ->). exists h. split; auto. intros q' r Ab' A'. pose proof (Only q' r Ab' A'). subst q'. now apply Old.
Qed.
Print Assumptions C153_one_load_partial.

(** ** Without that condition

    The folder is replaced between two readings of it, both made before either is kept: the
    catalog is of the old folder and the page of the new one, for good (by [C153_kept_partial]). *)
Definition replaced : services string string unit unit unit :=
  CacheModel.Services (fun _ r => r = Ok "old" \/ r = Ok "new") (fun f r => r = Ok f) (fun _ => False)
    (fun h => h) (fun _ => "a.xml") (fun _ => None)
    (fun h r => r = Ok (Some h)) (fun _ h r => r = Ok (Some h)) (fun _ _ => False)
    (fun _ _ h r => r = Ok (Some h)) (fun _ r => r = Ok tt) (fun r => r = Ok tt) (fun r => r = Ok tt).
Lemma two_reads {F H S N U} (sv : services F H S N U) m q p l1 k1 h1 l2 k2 h2 p2 :
  p = Lookup l1 true k1 h1 (Lookup l2 true k2 h2 p2) -> free m ->
  exists m', run sv false true (State [] m [(q, TRun p)]) (State [] m' [(q, TRun p2)]) /\ free m'.
Proof.
  intros -> Fm. assert (C0 : calm (@nil (option request * goroutine H S N U))) by constructor.
  destruct (read_done sv false true [] m [] q l1 true k1 h1 (Lookup l2 true k2 h2 p2) (Lookup l2 true k2 h2 p2) [] Fm C0 C0 eq_refl) as (m1 & R1 & F1).
  destruct (read_done sv false true [] m1 [] q l2 true k2 h2 p2 p2 [] F1 C0 C0 eq_refl) as (m2 & R2 & F2).
  exists m2. split; auto. exact (run_trans _ _ _ _ _ _ R1 R2).
Qed.
(** the two requests of [C153_refuted], one after the other being read *)
Lemma mixing {F H S N U} (sv : services F H S N U) qa qb l1 k1 h1 l2 k2 h2 p2 ra rb c1 c2 :
  program sv false true qb = Lookup l1 true k1 h1 (Lookup l2 true k2 h2 p2) -> p2 <> Crash ->
  solo [] (program sv false true qa) ra c1 -> solo c1 p2 rb c2 ->
  exists s, run sv false true (initial []) s /\ at_rest s /\ requests s = [qb; qa] /\ answered s qa ra /\ answered s qb rb.
Proof.
  intros E Np Sa Sb. set (m0 := fun _ : lockid => RW 0 false). assert (M0 : free m0) by (now intros l).
  destruct (two_reads sv m0 (Some qb) _ _ _ _ _ _ _ _ E M0) as (m1 & R1 & F1).
  assert (C1 : calm [(Some qb, TRun p2)]) by (constructor; [split; [reflexivity|cbn; congruence]|constructor]).
  destruct (CacheProofs.serve sv false true [] m1 [(Some qb, TRun p2)] qa ra c1 F1 C1 Sa) as (m2 & ws & R2 & F2 & C2 & W2).
  assert (C3 : calm ((Some qa, TRun (CacheModel.Answer ra)) :: ws)) by (now inversion C2).
  destruct (solo_run sv false true c1 p2 rb c2 Sb m2 [] (Some qb) _ F2 ltac:(constructor) C3) as (m3 & ws' & R3 & F3 & C4 & W3).
  exists (State c2 m3 ([] ++ (Some qb, TRun (CacheModel.Answer rb)) :: ((Some qa, TRun (CacheModel.Answer ra)) :: ws) ++ ws'))%list.
  split; [|split; [|split; [|split]]].
  - assert (R0 : run sv false true (initial []) (State [] m0 [(Some qb, TRun (program sv false true qb))])).
    { apply (run_step _ _ _ _ _ sv false true _ (initial [])); [apply run_refl|]. apply (step_request _ _ _ _ _ sv false true [] m0 [] qb). constructor. }
    exact (run_trans _ _ _ _ _ _ (run_trans _ _ _ _ _ _ (run_trans _ _ _ _ _ _ R0 R1) R2) R3).
  - apply settled_rest. unfold settled. cbn [List.app]. apply Forall_cons; [right; exists rb; reflexivity|]. apply Forall_cons; [right; exists ra; reflexivity|].
    apply Forall_app. rewrite Forall_forall in W2, W3. split; apply Forall_forall; intros t It; left; [rewrite (W2 t It)|rewrite (W3 t It)]; reflexivity.
  - unfold requests. cbn [threads app flat_map fst]. rewrite flat_map_app, (requests_ws ws W2), (requests_ws ws' W3). reflexivity.
  - unfold answered. cbn. auto.
  - unfold answered. cbn. auto.
Qed.
Theorem C153_refuted : exists (F H S N U : Type) (sv : services F H S N U) s id slug b b',
  run sv false true (initial []) s /\ at_rest s /\ separate (requests s) /\
  answered s (RCatalog id) (Ok (VBytes (Some b))) /\ answered s (RRender id slug) (Ok (VBytes (Some b'))) /\
  ~ (exists h, shown sv h (RCatalog id) (Ok (VBytes (Some b))) /\ shown sv h (RRender id slug) (Ok (VBytes (Some b')))).
Proof.
  destruct (mixing replaced (RCatalog "F") (RRender "F" "s") _ _ _ _ _ _ _ (Ok (VBytes (Some "old"))) (Ok (VBytes (Some "new")))
    [("F", VHyd (Some "old")); ("F/", VBytes (Some "old"))] [("F", VHyd (Some "new")); ("F/", VBytes (Some "old")); ("F/s", VBytes (Some "new"))] eq_refl)
    as (s & R & Re & Rq & Aa & Ab).
  { discriminate. }
  { cbn [program]. unfold marshal_catalog, with_hydratable, and_save. eapply solo_miss; [reflexivity|]. eapply solo_compute; [left; reflexivity|]. solo. }
  { eapply solo_compute; [right; reflexivity|]. cbn [and_save]. solo. }
  exists string, string, unit, unit, unit, replaced, s, "F", "s", "old", "new". rewrite Rq.
  split; [exact R|]. split; [exact Re|]. split.
  { apply usual_separate.
    + intros q Hq. cbn in Hq. repeat destruct Hq as [<-|Hq]; try contradiction; cbn; repeat split; try discriminate; intuition discriminate.
    + intros i n c i' n' c' H1. cbn in H1. repeat destruct H1 as [H1|H1]; try discriminate; contradiction. }
  split; [exact Aa|]. split; [exact Ab|].
  intros (h & (a & Ta & [Xa|(m & _ & [=])]) & (a' & Ta' & [Xa'|(m' & _ & [=])])).
  cbn in Ta. subst a. cbn in Xa. injection Xa as <-.
  destruct Ta' as [[[Y _] _]|[_ Ta']]; [discriminate Y|]. cbn in Ta'. subst a'. discriminate Xa'.
Qed.
Print Assumptions C153_refuted.

(** The hypotheses are met: the catalog of the old folder is shown, the folder is replaced
    ([replaced] now discovers "new"), and a page is asked for. It is of the old folder. *)
Example C153_example : exists s s',
  run replaced false true (initial []) s /\ at_rest s /\ run replaced false true s s' /\ separate (requests s') /\
  asked_about s "F" [RCatalog "F"] /\ answered s (RCatalog "F") (Ok (VBytes (Some "old"))) /\
  (forall r, answered s (RCatalog "F") r -> r = Ok (VBytes (Some "old"))) /\
  discover replaced "F" (Ok "new") /\ answered s' (RRender "F" "s") (Ok (VBytes (Some "old"))).
Proof.
  set (m0 := fun _ : lockid => RW 0 false). assert (M0 : free m0) by (now intros l).
  destruct (CacheProofs.serve replaced false true [] m0 [] (RCatalog "F") (Ok (VBytes (Some "old")))
    [("F", VHyd (Some "old")); ("F/", VBytes (Some "old"))] M0 ltac:(constructor)) as (m1 & ws & R1 & F1 & C1 & W1).
  { cbn [program]. unfold marshal_catalog, with_hydratable, and_save. eapply solo_miss; [reflexivity|]. eapply solo_compute; [left; reflexivity|]. solo. }
  destruct (CacheProofs.serve replaced false true [("F", VHyd (Some "old")); ("F/", VBytes (Some "old"))] m1 _ (RRender "F" "s") (Ok (VBytes (Some "old")))
    [("F", VHyd (Some "old")); ("F/", VBytes (Some "old")); ("F/s", VBytes (Some "old"))] F1 C1) as (m2 & ws' & R2 & F2 & C2 & W2).
  { cbn [program]. unfold marshal_renderable, with_hydratable. eapply solo_miss; [reflexivity|]. eapply solo_hit; [reflexivity|reflexivity|].
    cbn [and_save]. solo. }
  do 2 eexists. split; [exact R1|]. split.
  { apply settled_rest. unfold settled. cbn [List.app]. apply Forall_cons; [right; eexists; reflexivity|].
    rewrite Forall_forall in W1. apply Forall_forall. intros t It. left. now rewrite (W1 t It). }
  split; [exact R2|]. split.
  { unfold requests. cbn [threads]. rewrite !flat_map_app. cbn [flat_map fst List.app]. rewrite (requests_ws ws W1), (requests_ws ws' W2).
    apply usual_separate.
    + intros q Hq. cbn in Hq. repeat destruct Hq as [<-|Hq]; try contradiction; cbn; repeat split; try discriminate; intuition discriminate.
    + intros i n c i' n' c' H1. cbn in H1. repeat destruct H1 as [H1|H1]; try discriminate; contradiction. }
  split.
  { exists (fun q => match q with RCatalog i | RRender i _ | RFact i _ _ => String.eqb i "F" | _ => false end). split.
    - intros [i|i sl|i n c|u| |]; cbn; rewrite ?String.eqb_eq; intuition discriminate.
    - unfold requests. cbn [threads List.app flat_map fst]. rewrite (requests_ws ws W1). reflexivity. }
  split; [unfold answered; cbn; auto|]. split.
  { intros r. unfold answered. cbn [threads List.app]. intros [[= <-]|I]; auto. rewrite Forall_forall in W1. apply W1 in I. discriminate. }
  split; [cbn; auto|]. unfold answered. cbn [threads]. apply in_or_app. right. now left.
Qed.

(** ** Over HTTP, with files that change *)
Lemma called_one method path query q q' : called method path query q -> called method path query q' -> q = q'.
Proof.
  intros [_ A] [_ B]. destruct (try_routes method path new_router) as [[] vs|]; try contradiction; try congruence.
  destruct A as (f & n & c & E1 & E2 & E3 & ->), B as (f' & n' & c' & E1' & E2' & E3' & ->). congruence.
Qed.
Lemma error_status detect msg code : code <> 200 -> status (finish detect (http_error msg code new_writer)) = code.
Proof. intros N. reflexivity. Qed.
Lemma reply_ok detect x p : option_map (finish detect) (reply x) = Some p -> status p = 200 -> exists b, x = Ok b.
Proof.
  destruct x as [b|m|]; cbn [reply option_map]; [eauto| |discriminate]. intros [= <-]. rewrite error_status by discriminate. discriminate.
Qed.
Lemma serve_ok {H S N U} detect v method path query q p : called method path query q ->
  serve detect v method path query = RouterModel.Answer (Some p) -> status p = 200 ->
  exists b, returned (H := H) (S := S) (N := N) (U := U) v q = Ok (VBytes b).
Proof.
  intros [Cp Cl] E St. unfold serve in E. rewrite Cp, String.eqb_refl in E. cbn [negb] in E.
  assert (OK : forall x, RouterModel.Answer (option_map (finish detect) (reply x)) = RouterModel.Answer (Some p) -> exists b, bytes_value (H := H) (S := S) (N := N) (U := U) x = Ok (VBytes b)).
  { intros x [= E0]. destruct (reply_ok _ _ _ E0 St) as [b ->]. exists b. reflexivity. }
  assert (NO : forall msg code, code <> 200 -> RouterModel.Answer (option_map (finish detect) (Some (http_error msg code new_writer))) <> RouterModel.Answer (Some p)).
  { intros msg code N0 [= E0]. rewrite <- E0, error_status in St by auto. contradiction. }
  destruct (try_routes method path new_router) as [[] vs|]; try contradiction.
  - subst q. unfold catalog_handler in E. destruct (negb _); [exfalso; eapply NO; [|exact E]; discriminate|].
    destruct (negb _); [exfalso; eapply NO; [|exact E]; discriminate|]. now apply OK.
  - subst q. unfold renderable_handler in E. destruct (negb _); [exfalso; eapply NO; [|exact E]; discriminate|].
    destruct (negb _); [exfalso; eapply NO; [|exact E]; discriminate|]. destruct (negb _); [exfalso; eapply NO; [|exact E]; discriminate|]. now apply OK.
  - destruct Cl as (f & n & c & E1 & E2 & E3 & ->). unfold expressable_handler in E. destruct (negb _); [exfalso; eapply NO; [|exact E]; discriminate|].
    destruct (negb _); [exfalso; eapply NO; [|exact E]; discriminate|]. cbn [rqRawQuery] in E. rewrite E1, E2, E3 in E. now apply OK.
Qed.

Lemma serve_same {H S N U} detect v v' method path query q : called method path query q ->
  returned (H := H) (S := S) (N := N) (U := U) v q = returned v' q -> serve detect v method path query = serve detect v' method path query.
Proof.
  intros [Cp Cl] E. unfold serve. rewrite Cp, String.eqb_refl. cbn [negb].
  assert (J : forall x y, bytes_value (H := H) (S := S) (N := N) (U := U) x = bytes_value y -> x = y) by (intros [] []; cbn; congruence).
  destruct (try_routes method path new_router) as [[] vs|]; try contradiction.
  - subst q. apply J in E. unfold catalog_handler. cbn in E. now rewrite E.
  - subst q. apply J in E. unfold renderable_handler. cbn in E. now rewrite E.
  - destruct Cl as (f & n & c & E1 & E2 & E3 & ->). apply J in E. unfold expressable_handler. cbn [rqRawQuery] in *. rewrite E1, E2, E3. cbn in E. now rewrite E.
Qed.
(** [W] are the worlds while the server runs. It is idle in [s], and every answer to this
    request so far has been [p], a page. Then every answer to it will be [p], whatever has
    become of the files. *)
Theorem C153_page_partial : forall W detect files injected s s' method path query q p,
  run (services_over W) false injected (initial []) s -> at_rest s -> run (services_over W) false injected s s' ->
  (forall q, In q (requests s') -> usual q) -> no_collision (requests s') ->
  called method path query q ->
  exchanged detect files s method path query (RouterModel.Answer (Some p)) -> status p = 200 ->
  (forall a, exchanged detect files s method path query a -> a = RouterModel.Answer (Some p)) ->
  forall a, exchanged detect files s' method path query a -> a = RouterModel.Answer (Some p).
Proof.
  intros W detect files injected s s' method path query q p R0 Re R1 Us Nc Cl (v & Fv & Ep & Av) St Un a (v' & Fv' & Ea & Av').
  pose proof (usual_separate _ Us Nc) as Sp. pose proof (Av q Cl) as A. pose proof (Av' q Cl) as A'.
  destruct (serve_ok (H := report) (S := SchemaModel.schema) (N := list (string * list (string * string))) (U := InstanceModel.registry)
              detect v method path query q p Cl (eq_sym Ep) St) as [b Eb].
  assert (Back : answered s q (returned v' q) -> a = RouterModel.Answer (Some p)).
  { intros B. apply Un. exists v'. split; auto. split; auto. intros q1 C1. now rewrite (called_one _ _ _ _ _ C1 Cl). }
  destruct (ended_stays _ injected s s' R1) as [Up|Es]; [|subst s'; auto].
  pose proof (separate_before _ injected s s' R1 Sp) as Sp0.
  assert (O : of_folder q).
  { destruct Cl as [_ Cl]. destruct (try_routes method path new_router) as [[] vs|]; try contradiction; [subst q; exact I|subst q; exact I|].
    destruct Cl as (? & ? & ? & _ & _ & _ & ->). exact I. }
  destruct (answers_later _ injected s s' R0 Re Up R1 Sp q _ O A') as [B|[Fr _]]; [auto|].
  rewrite Eb in A. destruct (page_stored _ injected s q b R0 Sp0 Re Up O A) as [(x & Ex & r0 & A0 & X) K].
  specialize (Fr x Ex K). destruct X as [->|[-> [m ->]]]; [apply Back; now rewrite Fr|].
  exfalso. set (ve := RouterModel.Services (fun _ => Err m) (fun _ _ => Err m) (fun _ _ _ => Err m) files).
  assert (Ee : exchanged detect files s method path query (serve detect ve method path query)).
  { exists ve. split; [reflexivity|]. split; [reflexivity|]. intros q1 C1. rewrite (called_one _ _ _ _ _ C1 Cl).
    destruct q; try contradiction; exact A0. }
  apply Un in Ee. destruct (serve_ok (H := report) (S := SchemaModel.schema) (N := list (string * list (string * string))) (U := InstanceModel.registry)
              detect ve method path query q p Cl Ee St) as [b' Eb'].
  destruct q; try contradiction; discriminate Eb'.
Qed.
Print Assumptions C153_page_partial.

(** The hypotheses are met: a grid is asked for, then all files may have been deleted, and it
    is asked for again. *)
From Verif Require EndToEndProps ReportProps ReportModel PathSpec WebSpec RouterSpec RouterProps CatalogProofs ServerProps LoadModel.
Lemma twice {F H S N U} (sv : services F H S N U) q r c1 c2 :
  solo [] (program sv false true q) r c1 -> solo c1 (program sv false true q) r c2 ->
  exists s s', run sv false true (initial []) s /\ at_rest s /\ run sv false true s s' /\ requests s' = [q; q] /\
    answered s q r /\ (forall r', answered s q r' -> r' = r) /\ answered s' q r.
Proof.
  intros S1 S2. set (m0 := fun _ : lockid => RW 0 false). assert (M0 : free m0) by (now intros l).
  destruct (CacheProofs.serve sv false true [] m0 [] q r c1 M0 ltac:(constructor) S1) as (m1 & ws & R1 & F1 & C1 & W1).
  destruct (CacheProofs.serve sv false true c1 m1 _ q r c2 F1 C1 S2) as (m2 & ws' & R2 & F2 & C2 & W2).
  do 2 eexists. split; [exact R1|]. split.
  { apply settled_rest. unfold settled. cbn [List.app]. apply Forall_cons; [right; eexists; reflexivity|].
    rewrite Forall_forall in W1. apply Forall_forall. intros t It. left. now rewrite (W1 t It). }
  split; [exact R2|]. split.
  { unfold requests. cbn [threads]. rewrite !flat_map_app. cbn [flat_map fst List.app]. rewrite (requests_ws ws W1), (requests_ws ws' W2). reflexivity. }
  split; [unfold answered; cbn; auto|]. split.
  { intros r'. unfold answered. cbn [threads List.app]. intros [[= <-]|I]; auto. rewrite Forall_forall in W1. apply W1 in I. discriminate. }
  unfold answered. cbn [threads]. apply in_or_app. right. now left.
Qed.
Lemma grid_over (W : world -> Prop) w id f h slug b : W w -> discovered w id (Ok f) ->
  hydrated_as w f (Ok (Report h (fo_bytes f))) -> path_ext slug <> ".xhtml" /\ path_ext slug <> ".htm" ->
  ReportModel.returned_renderable (out w) h slug (Ok (Some b)) ->
  exists c, solo [] (program (services_over W) false true (RRender id slug)) (Ok (VBytes (Some b))) c /\
    solo c (program (services_over W) false true (RRender id slug)) (Ok (VBytes (Some b))) c.
Proof.
  intros Ww D Y X M. eexists. split.
  - cbn [program]. unfold marshal_renderable, with_hydratable. eapply solo_miss; [reflexivity|]. eapply solo_miss; [reflexivity|].
    eapply solo_compute; [exists w; split; [exact Ww|exact D]|]. cbv beta iota. eapply solo_call; [exists w; split; [exact Ww|exact Y]|]. cbv beta iota.
    unfold save. eapply solo_spawn. rewrite (ServerProps.not_document slug X). cbn [andb].
    unfold and_save. eapply solo_call; [exists w; split; [exact Ww|exact M]|]. cbv beta iota. unfold save. eapply solo_spawn. eapply solo_answer.
  - cbn [program]. unfold marshal_renderable. eapply solo_hit; [cbn [negb]; apply (GoFacts.mget_mset_eq _ GoFacts.seqP)|reflexivity|apply solo_answer].
Qed.
Definition erased (w : world) : world :=
  World (LoadModel.Disk (fun _ => false) (fun _ => None) (fun _ => false) (fun _ => None) (fun _ => None) (fun _ => None))
    (w_wd w) (w_entry w) (fun _ => None) (w_detect w) (w_base64 w) (w_parse w) (w_render w) (w_float w) (w_tokens w) (w_out w).
Example C153_page_example : exists (W : world -> Prop) files s s' path q p,
  (exists w, W w /\ forall name, LoadModel.d_file (w_disk w) name = None) /\
  run (services_over W) false true (initial []) s /\ at_rest s /\ run (services_over W) false true s s' /\
  (forall q, In q (requests s') -> usual q) /\ no_collision (requests s') /\ called "GET" path "" q /\
  exchanged (fun _ => "") files s "GET" path "" (RouterModel.Answer (Some p)) /\ status p = 200 /\
  (forall a, exchanged (fun _ => "") files s "GET" path "" a -> a = RouterModel.Answer (Some p)) /\
  requests s' = [q; q] /\ exchanged (fun _ => "") files s' "GET" path "" (RouterModel.Answer (Some p)).
Proof.
  destruct ServerProps.pair_hydrated as (f&D&Y&_). destruct ReportProps.pair_served as (b&B).
  assert (B' : ReportModel.returned_renderable ReportProps.pair_outside ReportProps.pair_report ReportProps.pair_slug (Ok (Some b))) by (inversion B; assumption).
  set (W := fun w => w = ServerProps.pair_world \/ w = erased ServerProps.pair_world).
  destruct (grid_over W ServerProps.pair_world "f" f ReportProps.pair_report ReportProps.pair_slug b (or_introl eq_refl) D Y ltac:(vm_compute; split; discriminate) B')
    as (c & S1 & S2).
  destruct (twice _ _ _ _ _ S1 S2) as (s & s' & R0 & Re & R1 & Rq & A & Un & A').
  set (files := fun _ _ : string => @None response).
  set (sv := RouterModel.Services (fun _ => Panic) (fun _ _ => Ok (Some b)) (fun _ _ _ => Panic) files).
  set (path := ("/folders/f/" ++ ReportProps.pair_slug)%string).
  assert (Cl : called "GET" path "" (RRender "f" ReportProps.pair_slug)) by (split; vm_compute; reflexivity).
  assert (SL : CatalogSpec.is_slug ReportProps.pair_entity ReportProps.pair_set ReportProps.pair_slug) by apply CatalogProofs.hash_slug.
  pose proof (EndToEndProps.slug_part _ _ _ SL) as [SE SF].
  destruct (RouterProps.C123_get (fun _ => "") sv path "" (RouterSpec.RenderableOf "f" ReportProps.pair_slug)) as (x&E&p&->&ST&BD).
  { apply (EndToEndProps.network_tidy "f"); auto. repeat split; discriminate. }
  { apply RouterSpec.ad_renderable; auto using EndToEndProps.entry_part. apply EndToEndProps.entry_part. repeat split; discriminate. }
  exists W, files, s, s', path, (RRender "f" ReportProps.pair_slug), p. split; [exists (erased ServerProps.pair_world); split; [right; reflexivity|reflexivity]|].
  split; [exact R0|]. split; [exact Re|]. split; [exact R1|].
  destruct (ServerProps.one_request s' ReportProps.pair_slug (or_intror Rq)) as [O1 O2]; [apply SE|apply SE|].
  split; [exact O1|]. split; [exact O2|]. split; [exact Cl|].
  assert (Me : forall s0 : state report SchemaModel.schema (list (string * list (string * string))) InstanceModel.registry, answered s0 (RRender "f" ReportProps.pair_slug) (Ok (VBytes (Some b))) ->
     exchanged (fun _ => "") files s0 "GET" path "" (RouterModel.Answer (Some p))).
  { intros s0 A0. exists sv. split; [reflexivity|]. split; [now symmetry|]. intros q C1. rewrite (called_one _ _ _ _ _ C1 Cl). exact A0. }
  split; [exact (Me s A)|]. split; [exact ST|]. split; [|split; [exact Rq|exact (Me s' A')]].
  intros a (v & Fv & Ea & Av). rewrite <- E, Ea. apply (serve_same (H := report) (S := SchemaModel.schema) (N := list (string * list (string * string))) (U := InstanceModel.registry) _ _ _ _ _ _ _ Cl).
  cbn [returned svRenderable sv bytes_value]. exact (Un _ (Av _ Cl)).
Qed.
