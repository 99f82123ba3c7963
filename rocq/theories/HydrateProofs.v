(** * HydrateProofs *)
From Verif Require Import GoBase GoSpec GoFacts AttrModel AttrSpec AttrProofs SchemaModel LinkbaseModel InstanceModel
  HydrateModel HydrateSpec.
Local Open Scope string_scope.

(** ** The goroutines of one phase *)
Section Phase.
  Variable np : name_provider.

  Definition weight (g : gstate) : nat := match g with GStart => 2 | GChecked => 1 | GDone => 0 end.
  Definition dsize (c : dconf) : nat := list_sum (map (fun t => weight (snd t)) (dThreads c)).
  Lemma dsize_mid e n c e' n' c' l1 (a : list qattr) g g' l2 :
    (weight g' < weight g)%nat ->
    (dsize (DConf e n c (l1 ++ (a, g') :: l2)) < dsize (DConf e' n' c' (l1 ++ (a, g) :: l2)))%nat.
  Proof.
    intros H. unfold dsize. simpl. rewrite !map_app, !list_sum_app. simpl. lia.
  Qed.
  Lemma dstep_decreases c c' : dstep np c (Some c') -> (dsize c' < dsize c)%nat.
  Proof.
    inversion 1; subst; apply dsize_mid; simpl; try lia. destruct e; simpl; lia.
  Qed.
  Lemma not_done_split (ts : list (list qattr * gstate)) : (forall t, In t ts -> snd t = GDone) \/
    exists l1 a g l2, ts = (l1 ++ (a, g) :: l2)%list /\ g <> GDone.
  Proof.
    induction ts as [|[a g] ts IH]; [left; intros ? []|].
    destruct IH as [D|(l1&b&g'&l2&->&N)].
    - destruct g.
      + right. exists [], a, GStart, ts. split; [reflexivity|discriminate].
      + right. exists [], a, GChecked, ts. split; [reflexivity|discriminate].
      + left. intros t [<-|Ht]; auto.
    - right. exists ((a, g) :: l1), b, g', l2. split; auto.
  Qed.
  Lemma progress c : all_done c \/ exists r, dstep np c r.
  Proof.
    destruct c as [e n c ts]. destruct (not_done_split ts) as [D|(l1&a&g&l2&->&N)]; [left; exact D|right].
    destruct g; [eexists; apply step_check| |contradiction].
    destruct (doc_body np a) as [|m|k x r] eqn:E.
    - exists None. now apply step_crash.
    - eexists. now apply step_fail with (m := m).
    - eexists. eapply step_put; eauto.
  Qed.
  Lemma runs_exist c : exists r, druns np c r.
  Proof.
    remember (dsize c) as s eqn:Hs. revert c Hs.
    induction s as [s IH] using lt_wf_ind. intros c ->.
    destruct (progress c) as [D|[[c'|] S]].
    - exists (Some c). now constructor.
    - destruct (IH (dsize c') (dstep_decreases _ _ S) c' eq_refl) as [r R]. exists r. econstructor; eauto.
    - exists None. now apply runs_crash.
  Qed.

  (** nodes whose goroutine has not ended *)
  Definition pending (c : dconf) (a : list qattr) : Prop := exists g, In (a, g) (dThreads c) /\ g <> GDone.
  Definition consistent (n : list (string * xname)) : Prop :=
    forall k x, sget k n = Some x -> provide_xml_name np k = Ok x.
  Definition only_true (m : list (string * bool)) : Prop := forall k b, sget k m = Some b -> b = true.

  Lemma body_put a k x r : doc_body np a = EPut k x r ->
    exists n c, find_xpath_attr a "name" = Some n /\ qvalue n = k /\ provide_xml_name np k = Ok x /\
      find_xpath_attr a "contextRef" = Some c /\ qvalue c = r.
  Proof.
    unfold doc_body. destruct (find_xpath_attr a "name") as [n|]; [|discriminate].
    destruct (provide_xml_name np (qvalue n)) as [y|m|] eqn:E; try discriminate.
    destruct (find_xpath_attr a "contextRef") as [c|]; [|discriminate].
    intro H; injection H; intros; subst. exists n, c. auto.
  Qed.

  Lemma sget_sset {V} k k2 (v : V) m : sget k2 (sset k v m) = if String.eqb k k2 then Some v else sget k2 m.
  Proof.
    apply mget_mset, seqP.
  Qed.

  Lemma pending_mid e n c e' n' c' l1 a g l2 b : g <> GDone ->
    pending (DConf e n c (l1 ++ (a, g) :: l2)) b <->
    b = a \/ pending (DConf e' n' c' (l1 ++ (a, GDone) :: l2)) b.
  Proof.
    intro N. unfold pending. cbn [dThreads]. split.
    - intros (g0&H&N0). apply in_app_or in H. simpl in H. destruct H as [H|[H|H]].
      + right. exists g0. split; auto. apply in_or_app. auto.
      + left. congruence.
      + right. exists g0. split; auto. apply in_or_app. simpl. auto.
    - intros [->|(g0&H&N0)].
      + exists g. split; auto. apply in_or_app. simpl. auto.
      + apply in_app_or in H. simpl in H. destruct H as [H|[H|H]].
        * exists g0. split; auto. apply in_or_app. auto.
        * injection H; intros; subst. contradiction.
        * exists g0. split; auto. apply in_or_app. simpl. auto.
  Qed.
  Lemma pending_keep e n c e' n' c' l1 a l2 b :
    pending (DConf e n c (l1 ++ (a, GStart) :: l2)) b <-> pending (DConf e' n' c' (l1 ++ (a, GChecked) :: l2)) b.
  Proof.
    rewrite (pending_mid e n c e n c l1 a GStart l2 b) by discriminate.
    now rewrite (pending_mid e' n' c' e n c l1 a GChecked l2 b) by discriminate.
  Qed.
  Ltac pmid Hb := eapply pending_mid; [discriminate|]; right; exact Hb.
  Ltac pkeep Hb := eapply pending_keep; exact Hb.
  Ltac phere := eapply (pending_mid _ _ _ None [] []); [discriminate|]; left; reflexivity.

  (** the final error comes from a failing goroutine; an error never disappears *)
  Lemma runs_error c r f : druns np c r -> r = Some f ->
    (forall m, dErr f = Some m -> dErr c = Some m \/ exists a, pending c a /\ doc_body np a = EFail m) /\
    (dErr f = None -> dErr c = None /\ forall a, pending c a -> exists k x r, doc_body np a = EPut k x r).
  Proof.
    intro R. revert f. induction R as [c D|c S|c c' r S R IH]; intros f E.
    - injection E; intros <-. split; [auto|]. intro Z. split; auto.
      intros a (g&H&N). apply D in H. simpl in H. contradiction.
    - discriminate.
    - destruct (IH f E) as [I1 I2]. clear IH.
      inversion S; subst; cbn [dErr] in *; try match goal with X : doc_body np _ = _ |- _ => rename X into HB end.
      + destruct e as [em|].
        * split.
          -- intros m Hm. destruct (I1 m Hm) as [H|(b&Hb&E2)]; [auto|]. right. exists b. split; auto.
             pmid Hb.
          -- intros Hn. destruct (I2 Hn) as [H _]. discriminate.
        * split.
          -- intros m Hm. destruct (I1 m Hm) as [H|(b&Hb&E2)]; [auto|]. right. exists b. split; auto.
             pkeep Hb.
          -- intros Hn. destruct (I2 Hn) as [H H2]. split; auto. intros b Hb. apply H2.
             pkeep Hb.
      + split.
        * intros m0 Hm. destruct (I1 m0 Hm) as [H|(b&Hb&E2)].
          -- right. exists a. split; [|congruence]. phere.
          -- right. exists b. split; auto. pmid Hb.
        * intros Hn. destruct (I2 Hn) as [H _]. discriminate.
      + split.
        * intros m Hm. destruct (I1 m Hm) as [H1|(b&Hb&E2)]; [auto|].
          right. exists b. split; auto. pmid Hb.
        * intros Hn. destruct (I2 Hn) as [H1 H2]. split; auto. intros b Hb.
          eapply pending_mid in Hb; [|discriminate]. destruct Hb as [->|Hb]; [eauto|apply H2; exact Hb].
  Qed.

  Lemma runs_maps c r f : druns np c r -> r = Some f -> consistent (dNames c) -> only_true (dCtx c) -> dErr f = None ->
    consistent (dNames f) /\ only_true (dCtx f) /\
    (forall k x, sget k (dNames f) = Some x <->
       sget k (dNames c) = Some x \/ exists a z, pending c a /\ doc_body np a = EPut k x z) /\
    (forall z, sget z (dCtx f) = Some true <->
       sget z (dCtx c) = Some true \/ exists a k x, pending c a /\ doc_body np a = EPut k x z).
  Proof.
    intro R. revert f. induction R as [c D|c S|c c' r S R IH]; intros f E HC HT HE.
    - injection E; intros <-. repeat split; auto.
      + intros [H|(a&z&(g&H&N)&_)]; auto. apply D in H. simpl in H. contradiction.
      + intros [H|(a&k&x&(g&H&N)&_)]; auto. apply D in H. simpl in H. contradiction.
    - discriminate.
    - destruct (proj2 (runs_error _ _ _ R E) HE) as [E0 _]. specialize (IH f E).
      inversion S; subst; cbn [dErr dNames dCtx] in *; try match goal with X : doc_body np _ = _ |- _ => rename X into HB end.
      + subst e. destruct (IH HC HT HE) as (J1&J2&J3&J4). repeat split; auto.
        * intro H. apply J3 in H as [H|(b&z&Hb&H)]; auto. right. exists b, z. split; auto.
          pkeep Hb.
        * intros H. apply J3. destruct H as [H|(b&z&Hb&H)]; auto. right. exists b, z. split; auto.
          pkeep Hb.
        * intro H. apply J4 in H as [H|(b&k&x&Hb&H)]; auto. right. exists b, k, x. split; auto.
          pkeep Hb.
        * intros H. apply J4. destruct H as [H|(b&k&x&Hb&H)]; auto. right. exists b, k, x. split; auto.
          pkeep Hb.
      + discriminate.
      + assert (HC' : consistent (sset k x n)).
        { intros k1 x1. rewrite sget_sset. destruct (String.eqb_spec k k1) as [<-|]; [|apply HC].
          intro H0; injection H0; intros <-. apply body_put in HB as (?&?&?&?&?&?). auto. }
        assert (HT' : only_true (sset r0 true c0)).
        { intros k1 b. rewrite sget_sset. destruct (String.eqb r0 k1); [congruence|apply HT]. }
        destruct (IH HC' HT' HE) as (J1&J2&J3&J4). split; [auto|]. split; [auto|]. split.
        * intros k1 x1. rewrite J3, sget_sset. split.
          -- intros [H1|(b&z&Hb&H1)].
             ++ destruct (String.eqb_spec k k1) as [<-|]; auto. right. exists a, r0.
                split; [phere|congruence].
             ++ right. exists b, z. split; auto. pmid Hb.
          -- intros [H1|(b&z&Hb&H1)].
             ++ left. destruct (String.eqb_spec k k1) as [<-|]; auto.
                apply HC in H1. apply body_put in HB as (?&?&?&?&?&?). congruence.
             ++ apply (pending_mid _ _ _ e (sset k x n) (sset r0 true c0)) in Hb; [|discriminate]. destruct Hb as [->|Hb]; [|right; exists b, z; split; [exact Hb|exact H1]].
                left. rewrite HB in H1. injection H1; intros; subst. now rewrite seqb_refl.
        * intros z1. rewrite J4, sget_sset. split.
          -- intros [H1|(b&k1&x1&Hb&H1)].
             ++ destruct (String.eqb_spec r0 z1) as [Ez|]; [|now left]. right. exists a, k, x.
                rewrite <- Ez. split; [phere|exact HB].
             ++ right. exists b, k1, x1. split; auto. pmid Hb.
          -- intros [H1|(b&k1&x1&Hb&H1)].
             ++ left. destruct (String.eqb_spec r0 z1); auto.
             ++ apply (pending_mid _ _ _ e (sset k x n) (sset r0 true c0)) in Hb; [|discriminate]. destruct Hb as [->|Hb]; [|right; exists b, k1, x1; split; [exact Hb|exact H1]].
                left. rewrite HB in H1. injection H1; intros; subst. now rewrite seqb_refl.
  Qed.

  Lemma runs_crash_only c r : druns np c r -> r = None -> exists a, pending c a /\ doc_body np a = ECrash.
  Proof.
    induction 1 as [c D|c S|c c' r S R IH]; intro E; [discriminate| |].
    - inversion S; subst. exists a. split; auto. exists GChecked. split; [|discriminate].
      simpl. apply in_or_app. simpl. auto.
    - destruct (IH E) as (b&Hb&H). exists b. split; auto. inversion S; subst.
      + destruct e; [pmid Hb|].
        pkeep Hb.
      + pmid Hb.
      + pmid Hb.
  Qed.

  Lemma pending_init els n c a : pending (dinit els n c) a <-> In a els.
  Proof.
    unfold pending, dinit. cbn [dThreads]. split.
    - intros (g&H&_). apply in_map_iff in H as (b&E&Hb). congruence.
    - intro H. exists GStart. split; [|discriminate]. apply in_map_iff. eauto.
  Qed.
  Lemma phase_exists els n c : exists r, phase np els n c r.
  Proof.
    destruct (runs_exist (dinit els n c)) as [[f|] R].
    - destruct (dErr f) as [m|] eqn:E; eexists; [eapply phase_err; eauto|eapply phase_ok; eauto].
    - eexists. now apply phase_crash.
  Qed.
  Lemma phase_err_from els n c m : phase np els n c (Err m) -> exists a, In a els /\ doc_body np a = EFail m.
  Proof.
    inversion 1; subst. destruct (runs_error _ _ _ H1 eq_refl) as [I _].
    destruct (I m H2) as [Z|(a&Ha&E)]; [discriminate|]. apply pending_init in Ha. eauto.
  Qed.
  Lemma phase_panic_from els n c : phase np els n c Panic -> exists a, In a els /\ doc_body np a = ECrash.
  Proof.
    inversion 1; subst. destruct (runs_crash_only _ _ H0 eq_refl) as (a&Ha&E). apply pending_init in Ha. eauto.
  Qed.
  Lemma phase_ok_maps els n c n' c' : phase np els n c (Ok (n', c')) -> consistent n -> only_true c ->
    (forall a, In a els -> exists k x z, doc_body np a = EPut k x z) /\
    consistent n' /\ only_true c' /\
    (forall k x, sget k n' = Some x <-> sget k n = Some x \/ exists a z, In a els /\ doc_body np a = EPut k x z) /\
    (forall z, sget z c' = Some true <-> sget z c = Some true \/ exists a k x, In a els /\ doc_body np a = EPut k x z).
  Proof.
    inversion 1 as [| |f R Ef]; subst. intros HC HT.
    destruct (proj2 (runs_error _ _ _ R eq_refl) Ef) as [_ I].
    destruct (runs_maps _ _ _ R eq_refl HC HT Ef) as (J1&J2&J3&J4).
    split; [intros a Ha; apply I, pending_init, Ha|]. split; [auto|]. split; [auto|]. split.
    - intros k x. rewrite J3. cbn [dinit dNames]. split; (intros [Z|(a&z&Ha&E)]; [now left|right; exists a, z; split; auto; revert Ha]); apply pending_init.
    - intros z. rewrite J4. cbn [dinit dCtx]. split; (intros [Z|(a&k&x&Ha&E)]; [now left|right; exists a, k, x; split; auto; revert Ha]); apply pending_init.
  Qed.
End Phase.

(** ** Relating the body to the specification *)
Lemma find_attr_of attrs n v : attr_of attrs n v <-> exists a, find_xpath_attr attrs n = Some a /\ qvalue a = v.
Proof.
  unfold attr_of. split; intros (a&H&E); exists a; split; auto; now apply find_xpath_attr_Some.
Qed.

Lemma declared_or_not attrs p : (exists v, declares attrs p v) \/ undeclared attrs p.
Proof.
  unfold declares, undeclared. induction attrs as [|a t IH] using rev_ind.
  - right. intros ? [].
  - destruct (String.eqb_spec (quri a) "xmlns") as [Q|Q]; [destruct (String.eqb_spec (nlocal (qname a)) p) as [L|L]|].
    + left. exists (qvalue a), a. split; auto. exists t, []. repeat split; auto.
    + assert (N : ~ (quri a = "xmlns" /\ nlocal (qname a) = p)) by tauto.
      destruct IH as [(v&b&(l1&l2&->&P&F)&V)|U].
      * left. exists v, b. split; auto. exists l1, (l2 ++ [a])%list. rewrite <- app_assoc. repeat split; try apply P; auto.
        intros y Hy. apply in_app_or in Hy as [Hy|[<-|[]]]; auto.
      * right. intros y Hy. apply in_app_or in Hy as [Hy|[<-|[]]]; auto.
    + assert (N : ~ (quri a = "xmlns" /\ nlocal (qname a) = p)) by tauto.
      destruct IH as [(v&b&(l1&l2&->&P&F)&V)|U].
      * left. exists v, b. split; auto. exists l1, (l2 ++ [a])%list. rewrite <- app_assoc. repeat split; try apply P; auto.
        intros y Hy. apply in_app_or in Hy as [Hy|[<-|[]]]; auto.
      * right. intros y Hy. apply in_app_or in Hy as [Hy|[<-|[]]]; auto.
Qed.

Lemma body_put_iff html np node k x c : new_name_provider html = Ok np ->
  doc_body np node = EPut k x c <-> inline_fact html node k x c.
Proof.
  intro H. unfold inline_fact. rewrite !find_attr_of. split.
  - intro E. apply body_put in E as (n&r&F&<-&P&F2&<-). split; [eauto|]. split; [eauto|].
    unfold provide_xml_name in P. destruct (cut ":" (qvalue n)) as [[p l]|] eqn:C; [|discriminate].
    apply cut_Some_iff in C as [E Fr]. exists p, l.
    destruct (declared_or_not html p) as [[v D]|U].
    + destruct (provide_xml_name_spec html np p l H Fr) as [S _]. specialize (S v D).
      exists v. repeat split; auto. unfold provide_xml_name in S.
      assert (C : cut ":" (p ++ ":" ++ l) = Some (p, l)) by (apply cut_Some_iff; auto). rewrite C in S. congruence.
    + destruct (provide_xml_name_spec html np p l H Fr) as [_ S]. destruct (S U) as [m S']. unfold provide_xml_name in S'.
      assert (C : cut ":" (p ++ ":" ++ l) = Some (p, l)) by (apply cut_Some_iff; auto). rewrite C in S'. congruence.
  - intros ((n&F&E1)&(r&F2&E2)&(p&l&v&->&Fr&D&->)). unfold doc_body. rewrite F, E1.
    rewrite (proj1 (provide_xml_name_spec html np p l H Fr) v D), F2. now rewrite E2.
Qed.
Lemma body_fail html np node : new_name_provider html = Ok np ->
  unresolved html node -> exists m, doc_body np node = EFail m.
Proof.
  intros H (p&l&A&Fr&U). apply find_attr_of in A as (n&F&E).
  destruct (provide_xml_name_spec html np p l H Fr) as [_ S]. destruct (S U) as [m E2].
  exists m. unfold doc_body. now rewrite F, E, E2.
Qed.
Lemma body_fail_iff html np node m : new_name_provider html = Ok np ->
  doc_body np node = EFail m -> unresolved html node.
Proof.
  intros H. unfold doc_body. destruct (find_xpath_attr node "name") as [n|] eqn:F; [|discriminate].
  destruct (provide_xml_name np (qvalue n)) as [x|e|] eqn:P; try discriminate.
  - destruct (find_xpath_attr node "contextRef"); discriminate.
  - intros _. assert (P0 := P). unfold provide_xml_name in P.
    destruct (cut ":" (qvalue n)) as [[p l]|] eqn:C; [|discriminate].
    apply cut_Some_iff in C as [E Fr]. exists p, l. split; [apply find_attr_of; eauto|]. split; auto.
    destruct (declared_or_not html p) as [[v D]|U]; auto.
    destruct (provide_xml_name_spec html np p l H Fr) as [S _].
    pose proof (S v D) as Z. rewrite E in P0. simpl in Z, P0. congruence.
Qed.

(** ** Hydrate *)
Section Each.
  Context {A B : Type} (f : option A -> string -> res B).
  Lemma hydrate_each_ok files out : hydrate_each f files = Ok out <-> all_loaded f files out.
  Proof.
    unfold hydrate_each, all_loaded. revert out. induction files as [|[k a] t IH]; intro out; simpl.
    - split.
      + intro H; injection H; intros <-. split; constructor.
      + intros [H _]. destruct out; [reflexivity|discriminate].
    - destruct (f (Some a) k) as [b|m|] eqn:E; simpl.
      + destruct (mapM _ t) as [bs|m|] eqn:M; simpl.
        * destruct (IH bs) as [I _]. destruct (I eq_refl) as [I1 I2]. split.
          -- intro H; injection H; intros <-. split; simpl; [now f_equal|]. constructor; auto.
          -- intros [H1 H2]. inversion H2 as [|? [k2 b2] ? out' H3 H4]; subst. simpl in H1, H3.
             injection H1; intros H5 ->. f_equal. f_equal; [congruence|].
             assert (Ok bs = Ok out') as X by (apply IH; auto). congruence.
        * split; [discriminate|]. intros [H1 H2]. inversion H2 as [|? [k2 b2] ? out' H3 H4]; subst. simpl in H1.
          injection H1; intros H5 _. assert (Err m = Ok out') as X by (apply IH; auto). discriminate.
        * split; [discriminate|]. intros [H1 H2]. inversion H2 as [|? [k2 b2] ? out' H3 H4]; subst. simpl in H1.
          injection H1; intros H5 _. assert (Panic = Ok out') as X by (apply IH; auto). discriminate.
      + split; [discriminate|]. intros [_ H]. inversion H; subst. simpl in *. congruence.
      + split; [discriminate|]. intros [_ H]. inversion H; subst. simpl in *. congruence.
  Qed.
  Lemma hydrate_each_err files m : hydrate_each f files = Err m -> some_fails f files (Err m).
  Proof.
    unfold hydrate_each, some_fails. induction files as [|[k a] t IH]; simpl; [discriminate|].
    destruct (f (Some a) k) as [b|m'|] eqn:E; simpl.
    - destruct (mapM _ t) as [bs|m'|]; simpl; try discriminate.
      intro H. destruct (IH H) as (kv&?&?). exists kv. auto.
    - intro H. injection H; intros ->. exists (k, a). auto.
    - discriminate.
  Qed.
  Lemma hydrate_each_panic files : hydrate_each f files = Panic -> some_fails f files Panic.
  Proof.
    unfold hydrate_each, some_fails. induction files as [|[k a] t IH]; simpl; [discriminate|].
    destruct (f (Some a) k) as [b|m'|] eqn:E; simpl.
    - destruct (mapM _ t) as [bs|m'|]; simpl; try discriminate.
      intro H. destruct (IH eq_refl) as (kv&?&?). exists kv. auto.
    - discriminate.
    - intros _. exists (k, a). auto.
  Qed.
End Each.
