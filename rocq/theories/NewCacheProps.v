(** * NewCacheProps: C150 (there is one response cache) *)
From Coq Require Import List Bool Arith Lia.
From Verif Require Import NewCacheModel NewCacheSpec.
Import ListNotations.

(** ** Invariant *)
Definition at_work (pc : npc) : bool := match pc with NMaking | NAssigning _ => true | _ => false end.
Definition workers (l : list (bool * npc)) : nat := length (filter (fun x => at_work (snd x)) l).
Arguments workers : simpl never.
Record ninv (s : nstate) : Prop := {
  ni_fresh : n_once s = OFresh -> workers (n_calls s) = 0 /\ n_made s = 0 /\ n_app s = None;
  ni_running : n_once s = ORunning -> workers (n_calls s) = 1 /\ n_app s = None /\
    forall b pc, In (b, pc) (n_calls s) -> (pc = NMaking -> n_made s = 0) /\ (forall c, pc = NAssigning c -> c = 0 /\ n_made s = 1);
  ni_done : n_once s = ODone -> workers (n_calls s) = 0 /\ n_made s = 1 /\ n_app s = Some 0;
  ni_zero : forall b c, In (b, NDone (Some c)) (n_calls s) -> c = 0;
  ni_nil : forall b, (forall pc, ~ In (true, pc) (n_calls s)) -> n_dry s = false /\ ~ In (b, NDone None) (n_calls s) /\ (In (b, NLast) (n_calls s) -> n_once s = ODone) }.

Lemma workers_app l1 l2 : workers (l1 ++ l2) = workers l1 + workers l2.
Proof. unfold workers. now rewrite filter_app, app_length. Qed.
Lemma workers_cons x l : workers (x :: l) = (if at_work (snd x) then 1 else 0) + workers l.
Proof. unfold workers. cbn. destruct (at_work (snd x)); reflexivity. Qed.
Lemma no_workers l b pc : workers l = 0 -> In (b, pc) l -> at_work pc = false.
Proof.
  intros W I. apply in_split in I as (l1&l2&->). rewrite workers_app, workers_cons in W. cbn in W. destruct (at_work pc); auto. lia.
Qed.
Lemma in_mid {A} (x y : A) l1 l2 : In x (l1 ++ y :: l2) <-> x = y \/ In x (l1 ++ l2).
Proof. rewrite !in_app_iff. cbn. intuition auto. Qed.

Lemma ninv_run s : nrun s -> ninv s.
Proof.
  induction 1 as [|s b R I|s s' R I S].
  - split; cbn; try discriminate; auto; [intros b c []|]. intros b N. split; [reflexivity|]. split; intros [].
  - destruct I as [F N D Z L]. split; unfold ncall; cbn [n_dry n_once n_app n_made n_calls].
    + intro E. destruct (F E) as (A&B). split; auto. rewrite workers_app, A. reflexivity.
    + intro E. destruct (N E) as (A&B&K). split; [rewrite workers_app, A; reflexivity|]. split; auto. intros b' pc I. apply in_app_iff in I as [I|[[= <- <-]|[]]]; eauto.
      split; [discriminate|intros ? [=]].
    + intro E. destruct (D E) as (A&B). split; auto. rewrite workers_app, A. reflexivity.
    + intros b' c I. apply in_app_iff in I as [I|[[=]|[]]]; eauto.
    + intros b' H. destruct (L b') as (A&B&C).
      { intros pc I. apply (H pc). apply in_app_iff. auto. }
      split; auto. split; [intro I; apply in_app_iff in I as [I|[[=]|[]]]; auto|]. intro I; apply in_app_iff in I as [I|[[=]|[]]]; auto.
  - destruct I as [F N D Z L].
    destruct S as [d o a m l1 b l2|d o a m l1 b l2|d a m l1 b l2|d a m l1 b l2|d o a m l1 b l2|d o a m l1 b c l2|d o a m l1 b l2];
      cbn [n_dry n_once n_app n_made n_calls] in *.
    + split; cbn [n_dry n_once n_app n_made n_calls].
      * rewrite workers_app, workers_cons in *. cbn in *. auto.
      * intro E. destruct (N E) as (A&B&K). rewrite workers_app, workers_cons in *. cbn in *. split; auto. split; auto.
        intros b' pc I. apply in_mid in I as [[= -> ->]|I]; [split; [discriminate|intros ? [=]]|]. apply (K b'). apply in_mid. auto.
      * rewrite workers_app, workers_cons in *. cbn in *. auto.
      * intros b' c I. apply in_mid in I as [[=]|I]. apply (Z b'). apply in_mid. auto.
      * intros b' H. destruct (L b') as (A&B&C).
        { intros pc I. apply in_mid in I as [[= <- _]|I]; [apply (H NWritten)|apply (H pc)]; apply in_mid; auto. }
        split; [destruct b; auto; exfalso; apply (H NWritten), in_mid; auto|]. split.
        -- intro I. apply in_mid in I as [[=]|I]. apply B. apply in_mid. auto.
        -- intro I. apply in_mid in I as [[=]|I]. apply C. apply in_mid. auto.
    + assert (W : at_work (if d then NLast else NOnce) = false) by now destruct d.
      split; cbn [n_dry n_once n_app n_made n_calls].
      * rewrite workers_app, workers_cons in *. cbn [snd] in *. rewrite W. auto.
      * intro E. destruct (N E) as (A&B&K). rewrite workers_app, workers_cons in *. cbn [snd] in *. rewrite W. split; auto. split; auto.
        intros b' pc I. apply in_mid in I as [[= -> ->]|I]; [destruct d; split; try discriminate; intros ? [=]|]. apply (K b'). apply in_mid. auto.
      * rewrite workers_app, workers_cons in *. cbn [snd] in *. rewrite W. auto.
      * intros b' c I. apply in_mid in I as [I|I]; [destruct d; discriminate I|]. apply (Z b'). apply in_mid. auto.
      * intros b' H. destruct (L b') as (A&B&C).
        { intros pc I. apply in_mid in I as [[= <- _]|I]; [apply (H (if d then NLast else NOnce))|apply (H pc)]; apply in_mid; auto. }
        split; auto. subst d. split; intro I; (apply in_mid in I as [[=]|I]); [apply B|apply C]; apply in_mid; auto.
    + destruct (F eq_refl) as (A&B&E). subst. rewrite workers_app, workers_cons in A. cbn in A.
      split; cbn [n_dry n_once n_app n_made n_calls]; try discriminate.
      * intros _. rewrite workers_app, workers_cons. cbn. split; [lia|]. split; auto. intros b' pc I. apply in_mid in I as [[= -> ->]|I]; [split; [auto|intros ? [=]]|].
        assert (W : at_work pc = false) by (apply (no_workers (l1 ++ l2) b'); [rewrite workers_app; lia|auto]). split; [intros ->; discriminate W|intros ? ->; discriminate W].
      * intros b' c I. apply in_mid in I as [[=]|I]. apply (Z b'). apply in_mid. auto.
      * intros b' H. destruct (L b') as (A'&B'&C').
        { intros pc I. apply in_mid in I as [[= <- _]|I]; [apply (H NMaking)|apply (H pc)]; apply in_mid; auto. }
        split; auto. split; intro I; (apply in_mid in I as [[=]|I]); [apply B'; apply in_mid; auto|]. exfalso. assert (X : OFresh = ODone) by (apply C', in_mid; auto). discriminate X.
    + destruct (D eq_refl) as (A&B&E). subst. rewrite workers_app, workers_cons in A. cbn in A.
      split; cbn [n_dry n_once n_app n_made n_calls]; try discriminate.
      * intros _. rewrite workers_app, workers_cons. cbn. auto.
      * intros b' c I. apply in_mid in I as [[=]|I]. apply (Z b'). apply in_mid. auto.
      * intros b' H. destruct (L b') as (A'&B'&C').
        { intros pc I. apply in_mid in I as [[= <- _]|I]; [apply (H NLast)|apply (H pc)]; apply in_mid; auto. }
        split; auto. split; auto. intro I. apply in_mid in I as [[=]|I]. apply B', in_mid. auto.
    + destruct o.
      { destruct (F eq_refl) as (A&_). rewrite workers_app, workers_cons in A. cbn in A. lia. }
      2:{ destruct (D eq_refl) as (A&_). rewrite workers_app, workers_cons in A. cbn in A. lia. }
      destruct (N eq_refl) as (A&B&K). subst. rewrite workers_app, workers_cons in A. cbn in A.
      assert (m = 0) as -> by (exact (proj1 (K b NMaking (proj2 (in_mid _ _ _ _) (or_introl eq_refl))) eq_refl)).
      split; cbn [n_dry n_once n_app n_made n_calls]; try discriminate.
      * intros _. rewrite workers_app, workers_cons. cbn. split; [lia|]. split; auto. intros b' pc I.
        apply in_mid in I as [[= -> ->]|I]; [split; [discriminate|intros c [= <-]; auto]|].
        assert (W : at_work pc = false) by (apply (no_workers (l1 ++ l2) b'); [rewrite workers_app; lia|auto]). split; [intros ->; discriminate W|intros ? ->; discriminate W].
      * intros b' c I. apply in_mid in I as [[=]|I]. apply (Z b'). apply in_mid. auto.
      * intros b' H. destruct (L b') as (A'&B'&C').
        { intros pc I. apply in_mid in I as [[= <- _]|I]; [apply (H (NAssigning 0))|apply (H pc)]; apply in_mid; auto. }
        split; auto. split; intro I; (apply in_mid in I as [[=]|I]); [apply B'|apply C']; apply in_mid; auto.
    + destruct o.
      { destruct (F eq_refl) as (A&_). rewrite workers_app, workers_cons in A. cbn in A. lia. }
      2:{ destruct (D eq_refl) as (A&_). rewrite workers_app, workers_cons in A. cbn in A. lia. }
      destruct (N eq_refl) as (A&B&K). subst. rewrite workers_app, workers_cons in A. cbn in A.
      destruct (proj2 (K b (NAssigning c) (proj2 (in_mid _ _ _ _) (or_introl eq_refl))) c eq_refl) as [-> ->].
      split; cbn [n_dry n_once n_app n_made n_calls]; try discriminate.
      * intros _. rewrite workers_app, workers_cons. cbn. split; [lia|]. auto.
      * intros b' c I. apply in_mid in I as [[=]|I]. apply (Z b'). apply in_mid. auto.
      * intros b' H. destruct (L b') as (A'&B'&C').
        { intros pc I. apply in_mid in I as [[= <- _]|I]; [apply (H NLast)|apply (H pc)]; apply in_mid; auto. }
        split; auto. split; auto. intro I. apply in_mid in I as [[=]|I]. apply B', in_mid. auto.
    + assert (AZ : forall c, a = Some c -> c = 0).
      { intros c E. destruct o; [destruct (F eq_refl) as (_&_&X)|destruct (N eq_refl) as (_&X&_)|destruct (D eq_refl) as (_&_&X)]; congruence. }
      split; cbn [n_dry n_once n_app n_made n_calls].
      * rewrite workers_app, workers_cons in *. cbn in *. auto.
      * intro E. destruct (N E) as (A&B&K). rewrite workers_app, workers_cons in *. cbn in *. split; auto. split; auto.
        intros b' pc I. apply in_mid in I as [[= -> ->]|I]; [split; [discriminate|intros ? [=]]|]. apply (K b'). apply in_mid. auto.
      * rewrite workers_app, workers_cons in *. cbn in *. auto.
      * intros b' c I. apply in_mid in I as [I|I]; [injection I as _ I; now apply AZ|]. apply (Z b'). apply in_mid. auto.
      * intros b' H.
        assert (H' : forall pc, ~ In (true, pc) (l1 ++ (b, NLast) :: l2)).
        { intros pc I. apply in_mid in I as [[= <- _]|I]; [apply (H (NDone a))|apply (H pc)]; apply in_mid; auto. }
        destruct (L b' H') as (A&B&C). split; auto. split.
        -- intro I. apply in_mid in I as [I|I]; [|apply B, in_mid; auto]. injection I as _ I. subst a.
           destruct (L b H') as (_&_&C2). assert (X : o = ODone) by (apply C2, in_mid; auto). subst o. destruct (D eq_refl) as (_&_&X). discriminate X.
        -- intro I. apply in_mid in I as [[=]|I]. apply C, in_mid. auto.
Qed.

(** ** C150 *)

(** However NewCache is called, concurrently or not, one cache is made at most, and every call that returns a cache returns that. *)
Theorem C150_one : forall s, nrun s -> n_made s <= 1 /\ forall b b' c c', returned s b (Some c) -> returned s b' (Some c') -> c = c'.
Proof.
  intros s R. pose proof (ninv_run s R) as I. split.
  - destruct (n_once s) eqn:O.
    + destruct (ni_fresh s I O) as (_&->&_). lia.
    + destruct (ni_running s I O) as (W&_&K). assert (X : exists b pc, In (b, pc) (n_calls s) /\ at_work pc = true).
      { clear - W. induction (n_calls s) as [|[b pc] l IH]; [discriminate W|]. rewrite workers_cons in W. cbn in W. destruct (at_work pc) eqn:E; [exists b, pc; split; [now left|auto]|].
        destruct (IH W) as (b'&pc'&A&B). exists b', pc'. split; [now right|auto]. }
      destruct X as (b&pc&A&B). destruct (K b pc A) as [K1 K2]. destruct pc; try discriminate B; [rewrite K1; auto|destruct (K2 c eq_refl) as [_ ->]; auto].
    + destruct (ni_done s I O) as (_&->&_). lia.
  - intros b b' c c' A B. apply (ni_zero s I) in A, B. congruence.
Qed.
Print Assumptions C150_one.

(** If nobody asks for a dry run, every call returns the cache. *)
Theorem C150_cache_partial : forall s, nrun s -> ~ called s true -> forall b c, returned s b c -> exists k, c = Some k.
Proof.
  intros s R N b c H. destruct (ni_nil s (ninv_run s R) b) as (_&B&_); [intros pc I; apply N; now exists pc|].
  destruct c as [k|]; [now exists k|]. now contradiction B.
Qed.
Print Assumptions C150_cache_partial.

(** A call that no other overlaps sets the mode, and returns the cache if it asks for one; every such call returns. *)
Lemma quiet_split s : quiet s -> forall l1 b pc l2, n_calls s = (l1 ++ (b, pc) :: l2)%list -> exists c, pc = NDone c.
Proof. intros Q l1 b pc l2 E. apply (Q b). rewrite E. apply in_mid. auto. Qed.
(** of a call in progress: the other calls have returned *)
Lemma one_at_work s s' b pc done : (forall b pc, In (b, pc) done -> exists c, pc = NDone c) -> n_calls s = (done ++ [(b, pc)])%list -> nstep s s' ->
  exists pc', n_calls s' = (done ++ [(b, pc')])%list /\
    match pc with
    | NStart => pc' = NWritten /\ n_dry s' = b /\ n_once s' = n_once s /\ n_app s' = n_app s /\ n_made s' = n_made s
    | NWritten => pc' = (if n_dry s then NLast else NOnce) /\ n_dry s' = n_dry s /\ n_once s' = n_once s /\ n_app s' = n_app s /\ n_made s' = n_made s
    | NOnce => n_dry s' = n_dry s /\ n_app s' = n_app s /\ n_made s' = n_made s /\
        ((n_once s = OFresh /\ pc' = NMaking /\ n_once s' = ORunning) \/ (n_once s = ODone /\ pc' = NLast /\ n_once s' = ODone))
    | NMaking => pc' = NAssigning (n_made s) /\ n_dry s' = n_dry s /\ n_once s' = n_once s /\ n_app s' = n_app s
    | NAssigning c => pc' = NLast /\ n_dry s' = n_dry s /\ n_once s' = ODone /\ n_app s' = Some c
    | NLast => pc' = NDone (n_app s) /\ n_dry s' = n_dry s /\ n_once s' = n_once s /\ n_app s' = n_app s
    | NDone _ => False
    end.
Proof.
  intros Q E S.
  assert (K : forall l1 b' pc' l2, (l1 ++ (b', pc') :: l2)%list = (done ++ [(b, pc)])%list -> (forall c, pc' <> NDone c) -> l1 = done /\ b' = b /\ pc' = pc /\ l2 = []).
  { intros l1 b' pc' l2 X ND. destruct (list_eq_dec Nat.eq_dec (map (fun _ => 0) l2) []) as [Z|Z].
    - destruct l2; [|discriminate Z]. apply app_inj_tail in X as [-> [= -> ->]]. auto.
    - exfalso. destruct l2 as [|y l2]; [now apply Z|]. destruct (exists_last (l := y :: l2)) as (l&z&Y); [discriminate|]. rewrite Y in X.
      rewrite app_comm_cons, app_assoc in X. apply app_inj_tail in X as [X _]. destruct (Q b' pc') as (c&C); [rewrite <- X; apply in_mid; auto|]. now apply (ND c). }
  destruct S as [d o a m l1 b' l2|d o a m l1 b' l2|d a m l1 b' l2|d a m l1 b' l2|d o a m l1 b' l2|d o a m l1 b' c l2|d o a m l1 b' l2];
    cbn [n_dry n_once n_app n_made n_calls] in *; (destruct (K _ _ _ _ E) as (->&->&<-&->); [discriminate|]); eexists; (split; [reflexivity|]); repeat split; auto.
Qed.
Lemma alone s b : nrun s -> quiet s -> forall s', nsteps (ncall b s) s' ->
  exists pc, n_calls s' = (n_calls s ++ [(b, pc)])%list /\
    match pc with
    | NStart => n_once s' = n_once s /\ n_app s' = n_app s
    | NWritten => n_dry s' = b /\ n_once s' = n_once s /\ n_app s' = n_app s
    | NOnce => b = false /\ n_dry s' = b /\ n_once s' = n_once s /\ n_app s' = n_app s
    | NMaking => b = false /\ n_dry s' = b /\ n_once s' = ORunning
    | NAssigning c => b = false /\ n_dry s' = b /\ n_once s' = ORunning
    | NLast => n_dry s' = b /\ (b = true /\ n_app s' = n_app s \/ b = false /\ exists c, n_app s' = Some c)
    | NDone r => n_dry s' = b /\ n_app s' = r /\ (b = true /\ r = n_app s \/ b = false /\ exists c, r = Some c)
    end.
Proof.
  intros R Q s' S. remember (ncall b s) as s0 eqn:E0. induction S as [s0|s0 s1 s2 S IH ST]; subst.
  - exists NStart. cbn. auto.
  - destruct (IH eq_refl) as (pc&C&P). destruct (one_at_work s1 s2 b pc (n_calls s) Q C ST) as (pc'&C'&X). exists pc'. split; [exact C'|].
    assert (O : (n_once s = OFresh /\ n_app s = None) \/ (n_once s = ODone /\ exists c, n_app s = Some c)).
    { pose proof (ninv_run s R) as I. destruct (n_once s) eqn:O.
      - left. split; auto. apply (ni_fresh s I O).
      - exfalso. destruct (ni_running s I O) as (W&_). assert (Y : exists b pc, In (b, pc) (n_calls s) /\ at_work pc = true).
        { clear - W. induction (n_calls s) as [|[b pc] l IH]; [discriminate W|]. rewrite workers_cons in W. cbn in W. destruct (at_work pc) eqn:E; [exists b, pc; split; [now left|auto]|].
          destruct (IH W) as (b'&pc'&A&B). exists b', pc'. split; [now right|auto]. }
        destruct Y as (b1&pc1&A&B). destruct (Q b1 pc1 A) as (c&->). discriminate B.
      - right. split; auto. exists 0. apply (ni_done s I O). }
    destruct pc; cbn in P, X.
    + destruct X as (->&D&E1&E2&_), P as (P1&P2). repeat split; congruence.
    + destruct X as (->&D&E1&E2&_), P as (P0&P1&P2). subst b. destruct (n_dry s1) eqn:B; cbn.
      * split; [congruence|]. left. split; congruence.
      * repeat split; congruence.
    + destruct P as (P0&P1&P2&P3), X as (X1&X2&_&[(X4&->&X5)|(X4&->&X5)]).
      * repeat split; congruence.
      * split; [congruence|]. right. split; auto. destruct O as [(O1&_)|(_&c&O2)]; [congruence|]. exists c. congruence.
    + destruct P as (P0&P1&P2), X as (->&D&E1&E2). repeat split; congruence.
    + destruct P as (P0&P1&P2), X as (->&D&E1&E2). split; [congruence|]. right. split; auto. eauto.
    + destruct P as (P0&P1), X as (->&D&E1&E2). split; [congruence|]. split; [congruence|]. destruct P1 as [(A&B)|(A&c&B)]; [left|right]; split; auto; try congruence. exists c. congruence.
    + contradiction.
Qed.
Theorem C150_alone : forall s b, nrun s -> quiet s ->
  (exists s', nsteps (ncall b s) s' /\ quiet s') /\
  forall s', nsteps (ncall b s) s' -> quiet s' -> n_dry s' = b /\
    exists r, n_calls s' = (n_calls s ++ [(b, NDone r)])%list /\ n_app s' = r /\ (b = false -> exists c, r = Some c) /\ (b = true -> r = n_app s).
Proof.
  intros s b R Q. split.
  - pose proof (ninv_run s R) as I. destruct s as [d o a m l]. cbn in *.
    assert (QQ : forall r, quiet (NState b ODone a m (l ++ [(b, NDone r)])) ).
    { intros r b' pc H. cbn in H. apply in_app_iff in H as [H|[[= <- <-]|[]]]; eauto. }
    assert (S1 : nsteps (ncall b (NState d o a m l)) (NState b o a m (l ++ [(b, if b then NLast else NOnce)]))).
    { eapply nsteps_step; [eapply nsteps_step; [apply nsteps_refl|unfold ncall; cbn; apply ns_write]|apply ns_read]. }
    destruct b.
    + exists (NState true o a m (l ++ [(true, NDone a)])). split; [eapply nsteps_step; [exact S1|apply ns_return]|].
      intros b' pc H. cbn in H. apply in_app_iff in H as [H|[[= <- <-]|[]]]; eauto.
    + destruct o.
      * exists (NState false ODone (Some m) (S m) (l ++ [(false, NDone (Some m))])). split.
        -- eapply nsteps_step; [eapply nsteps_step; [eapply nsteps_step; [eapply nsteps_step; [exact S1|apply ns_first]|apply ns_make]|apply ns_assign]|apply ns_return].
        -- intros b' pc H. cbn in H. apply in_app_iff in H as [H|[[= <- <-]|[]]]; eauto.
      * exfalso. destruct (ni_running _ I eq_refl) as (W&_). cbn in W. assert (Y : exists b pc, In (b, pc) l /\ at_work pc = true).
        { clear - W. induction l as [|[b pc] l IH]; [discriminate W|]. rewrite workers_cons in W. cbn in W. destruct (at_work pc) eqn:E; [exists b, pc; split; [now left|auto]|].
          destruct (IH W) as (b'&pc'&A&B). exists b', pc'. split; [now right|auto]. }
        destruct Y as (b1&pc1&A&B). destruct (Q b1 pc1 A) as (c&->). discriminate B.
      * exists (NState false ODone a m (l ++ [(false, NDone a)])). split; [|apply QQ].
        eapply nsteps_step; [eapply nsteps_step; [exact S1|apply ns_later]|apply ns_return].
  - intros s' S Q'. destruct (alone s b R Q s' S) as (pc&C&P). destruct (Q' b pc) as (r&->); [rewrite C; apply in_app_iff; right; left; reflexivity|].
    destruct P as (D&A&[(B&E)|(B&c&E)]); (split; [exact D|]); exists r; (split; [exact C|]); (split; [exact A|]); split; intro; try congruence; eauto.
Qed.
Print Assumptions C150_alone.

(** C150. Refuted: NewCache(false) may return nil, if NewCache(true) is called at the same time; and NewCache(true) does, if it is the first. *)
Theorem C150_refuted :
  (exists s, nrun s /\ quiet s /\ returned s false None) /\ exists s, nrun s /\ quiet s /\ returned s true None /\ ~ called s false.
Proof.
  split.
  - exists (NState true OFresh None 0 [(false, NDone None); (true, NDone None)]). split; [|split].
    + eapply nrun_step; [|apply (ns_return true OFresh None 0 [(false, NDone None)] true [])].
      eapply nrun_step; [|apply (ns_return true OFresh None 0 [] false [(true, NLast)])].
      eapply nrun_step; [|apply (ns_read true OFresh None 0 [(false, NLast)] true [])].
      eapply nrun_step; [|apply (ns_read true OFresh None 0 [] false [(true, NWritten)])].
      eapply nrun_step; [|apply (ns_write false OFresh None 0 [(false, NWritten)] true [])].
      eapply nrun_step; [|apply (ns_write false OFresh None 0 [] false [(true, NStart)])].
      apply (nrun_call (NState false OFresh None 0 [(false, NStart)]) true). apply (nrun_call nstart false). apply nrun_start.
    + intros b pc [[= <- <-]|[[= <- <-]|[]]]; eauto.
    + left. reflexivity.
  - exists (NState true OFresh None 0 [(true, NDone None)]). split; [|split; [|split]].
    + eapply nrun_step; [|apply (ns_return true OFresh None 0 [] true [])].
      eapply nrun_step; [|apply (ns_read true OFresh None 0 [] true [])].
      eapply nrun_step; [|apply (ns_write false OFresh None 0 [] true [])].
      apply (nrun_call nstart true). apply nrun_start.
    + intros b pc [[= <- <-]|[]]; eauto.
    + left. reflexivity.
    + intros (pc&[[=]|[]]).
Qed.
Print Assumptions C150_refuted.

(** Two calls at the same time, both of which return the cache; then a third, of its own, with the other argument, which returns it as well. *)
Example C150_example : exists s, nrun s /\ quiet s /\ n_dry s = true /\
  n_calls s = [(false, NDone (Some 0)); (false, NDone (Some 0)); (true, NDone (Some 0))].
Proof.
  exists (NState true ODone (Some 0) 1 [(false, NDone (Some 0)); (false, NDone (Some 0)); (true, NDone (Some 0))]). split; [|split; [|split; reflexivity]].
  - eapply nrun_step; [|apply (ns_return true ODone (Some 0) 1 [(false, NDone (Some 0)); (false, NDone (Some 0))] true [])].
    eapply nrun_step; [|apply (ns_read true ODone (Some 0) 1 [(false, NDone (Some 0)); (false, NDone (Some 0))] true [])].
    eapply nrun_step; [|apply (ns_write false ODone (Some 0) 1 [(false, NDone (Some 0)); (false, NDone (Some 0))] true [])].
    apply (nrun_call (NState false ODone (Some 0) 1 [(false, NDone (Some 0)); (false, NDone (Some 0))]) true).
    eapply nrun_step; [|apply (ns_return false ODone (Some 0) 1 [] false [(false, NDone (Some 0))])].
    eapply nrun_step; [|apply (ns_return false ODone (Some 0) 1 [(false, NLast)] false [])].
    eapply nrun_step; [|apply (ns_later false (Some 0) 1 [] false [(false, NLast)])].
    eapply nrun_step; [|apply (ns_assign false ORunning None 1 [(false, NOnce)] false 0 [])].
    eapply nrun_step; [|apply (ns_make false ORunning None 0 [(false, NOnce)] false [])].
    eapply nrun_step; [|apply (ns_first false None 0 [(false, NOnce)] false [])].
    eapply nrun_step; [|apply (ns_read false OFresh None 0 [(false, NOnce)] false [])].
    eapply nrun_step; [|apply (ns_read false OFresh None 0 [] false [(false, NWritten)])].
    eapply nrun_step; [|apply (ns_write false OFresh None 0 [(false, NWritten)] false [])].
    eapply nrun_step; [|apply (ns_write false OFresh None 0 [] false [(false, NStart)])].
    apply (nrun_call (NState false OFresh None 0 [(false, NStart)]) false). apply (nrun_call nstart false). apply nrun_start.
  - intros b pc [[= <- <-]|[[= <- <-]|[[= <- <-]|[]]]]; eauto.
Qed.
