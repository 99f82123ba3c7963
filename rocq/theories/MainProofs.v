(** * MainProofs: invariants of the process *)
From Coq Require Import ZArith List Bool Lia.
From Verif Require Import MainModel MainSpec.
Import ListNotations.
Local Open Scope Z_scope.

(** ** Reading a log, newest first *)
Fixpoint first_int (l : list (Z * event)) : option Z :=
  match l with
  | [] => None
  | (t, e) :: l => match first_int l with Some t0 => Some t0 | None => match e with ESignal SInt => Some t | _ => None end end
  end.
Fixpoint outs (l : list (Z * event)) : list nat :=
  match l with
  | [] => []
  | (_, EReply _ r) :: l | (_, EHangUp _ r) :: l => r :: outs l
  | _ :: l => outs l
  end.
Fixpoint busy (cs : list conn) : list nat :=
  match cs with
  | [] => []
  | Conn _ (Some (r, _)) :: cs => r :: busy cs
  | _ :: cs => busy cs
  end.
Fixpoint sorted (now : Z) (l : list (Z * event)) : Prop :=
  match l with [] => True | (t, _) :: l => t <= now /\ sorted t l end.

Lemma sorted_le now now' l : sorted now l -> now <= now' -> sorted now' l.
Proof. destruct l as [|[t e] l]; cbn; [auto|]. intros [A B] C. split; [lia|auto]. Qed.
Lemma sorted_In now l t e : sorted now l -> In (t, e) l -> t <= now.
Proof.
  revert now. induction l as [|[u x] l IH]; intros now; cbn; [tauto|]. intros [A B] [H|H].
  - injection H as <- <-. exact A.
  - specialize (IH _ B H). lia.
Qed.
Lemma first_int_In l t : first_int l = Some t -> In (t, ESignal SInt) l.
Proof.
  induction l as [|[u x] l IH]; cbn; [discriminate|]. destruct (first_int l); [intros [= <-]; auto|].
  destruct x as [| | | | | |[]| |]; try discriminate. intros [= <-]. now left.
Qed.
Lemma first_int_none l : first_int l = None <-> forall t, ~ In (t, ESignal SInt) l.
Proof.
  induction l as [|[u x] l [IH1 IH2]]; cbn.
  - split; auto.
  - split.
    + destruct (first_int l) eqn:E; [discriminate|]. intros H t [F|F].
      * injection F as -> ->. discriminate.
      * now apply (IH1 eq_refl t).
    + intros H. destruct (first_int l) eqn:E.
      * apply first_int_In in E. exfalso. apply (H z). now right.
      * destruct x as [| | | | | |[]| |]; auto. exfalso. apply (H u). now left.
Qed.
(** The first interrupt of the history *)
Lemma first_int_app a b : first_int (a ++ b) = match first_int b with Some t => Some t | None => first_int a end.
Proof.
  induction a as [|[u x] a IH]; cbn; [now destruct (first_int b)|]. rewrite IH. destruct (first_int b); auto.
Qed.
Lemma first_interrupt_int p b t a : first_interrupt p b t a -> first_int (p_log p) = Some t.
Proof.
  intros [H N]. unfold history in H. assert (E : p_log p = rev a ++ (t, ESignal SInt) :: rev b).
  { rewrite <- (rev_involutive (p_log p)), H, rev_app_distr. cbn. now rewrite <- app_assoc. }
  rewrite E, first_int_app. cbn. replace (first_int (rev b)) with (@None Z); auto.
  symmetry. apply first_int_none. intros t' I. apply (N t'). now apply in_rev.
Qed.
Lemma seen_In p t e : seen p t e <-> In (t, e) (p_log p).
Proof. unfold seen, history. symmetry. apply in_rev. Qed.

Lemma busy_app a b : busy (a ++ b) = busy a ++ busy b.
Proof. induction a as [|[c [[r d]|]] a IH]; cbn; [auto|now rewrite IH|auto]. Qed.
Lemma busy_In cs r : In r (busy cs) <-> exists c d, In (Conn c (Some (r, d))) cs.
Proof.
  induction cs as [|[c [[r' d]|]] cs IH]; cbn.
  - split; [tauto|intros (?&?&[])].
  - rewrite IH. split.
    + intros [->|(c'&d'&H)]; eauto.
    + intros (c'&d'&[H|H]); [injection H as -> -> ->; auto|right; eauto].
  - rewrite IH. split.
    + intros (c'&d'&H); eauto.
    + intros (c'&d'&[H|H]); [discriminate|eauto].
Qed.
Lemma outs_In l r : In r (outs l) <-> exists t c, In (t, EReply c r) l \/ In (t, EHangUp c r) l.
Proof.
  induction l as [|[t e] l IH]; cbn [outs]; [split; [intros []|intros (?&?&[[]|[]])]|].
  assert (K : (exists u c, In (u, EReply c r) l \/ In (u, EHangUp c r) l) -> exists u c, In (u, EReply c r) ((t, e) :: l) \/ In (u, EHangUp c r) ((t, e) :: l))
    by (intros (u&c&[H|H]); exists u, c; [left|right]; now right).
  destruct e; cbn [In]; rewrite ?IH; (split; [intros H|intros (u&c'&[[H|H]|[H|H]]); try discriminate H; eauto]);
    try (now apply K); try (destruct H as [->|H]; [exists t, c; auto|now apply K]);
    try (right; now eauto); injection H as -> -> ->; auto.
Qed.
Lemma asked_before_In l r : asked_before l r = false -> forall t c, ~ In (t, ERequest c r) l.
Proof.
  unfold asked_before. intros H t c I. assert (X : existsb (fun e => match snd e with ERequest _ r' => Nat.eqb r' r | _ => false end) l = true).
  { apply existsb_exists. exists (t, ERequest c r). split; [exact I|cbn; apply Nat.eqb_refl]. }
  congruence.
Qed.

(** ** The invariant of the requests *)
Section Process.
  Variable f : flags.
  Variable panics deadly : nat -> bool.

  Record requests_inv (p : proc) : Prop := {
    ri_busy : forall c r d, In (Conn c (Some (r, d))) (p_conns p) ->
      exists ta, In (ta, ERequest c r) (p_log p) /\ d = ta + 15 * 1000000000 /\ ~ In r (outs (p_log p));
    ri_nodup : NoDup (busy (p_conns p));
    ri_reply : forall t c r, In (t, EReply c r) (p_log p) ->
      exists ta, In (ta, ERequest c r) (p_log p) /\ ta <= t <= ta + 15 * 1000000000 /\ panics r = false;
    ri_hangup : forall t c r, In (t, EHangUp c r) (p_log p) ->
      exists ta, In (ta, ERequest c r) (p_log p) /\ (ta + 15 * 1000000000 < t \/ panics r = true);
    ri_unique : forall t c t' c' r, In (t, ERequest c r) (p_log p) -> In (t', ERequest c' r) (p_log p) -> t = t' /\ c = c';
    ri_outs : NoDup (outs (p_log p));
    ri_all : p_main p <> MGone -> forall t c r, In (t, ERequest c r) (p_log p) -> In r (outs (p_log p)) \/ In r (busy (p_conns p));
    ri_sorted : sorted (p_now p) (p_log p) }.

  Lemma requests_initial : requests_inv initial.
  Proof. split; cbn; try tauto; constructor. Qed.

  (** Steps that log something other than a request or an outcome and leave the busy connections *)
  Definition dull (e : event) : bool := match e with ERequest _ _ | EReply _ _ | EHangUp _ _ => false | _ => true end.
  Lemma outs_dull t e l : dull e = true -> outs ((t, e) :: l) = outs l.
  Proof. destruct e; cbn; auto; discriminate. Qed.
  Lemma dull_step p q : requests_inv p ->
    (p_log q = p_log p \/ exists e, dull e = true /\ p_log q = (p_now p, e) :: p_log p) ->
    (forall c r d, In (Conn c (Some (r, d))) (p_conns q) -> In (Conn c (Some (r, d))) (p_conns p)) ->
    NoDup (busy (p_conns q)) ->
    (p_main q = MGone \/ (p_main p <> MGone /\ forall r, In r (busy (p_conns p)) -> In r (busy (p_conns q)))) ->
    p_now p <= p_now q -> requests_inv q.
  Proof.
    intros [B N R H U O A S] L C ND M T.
    assert (LI : forall t e, dull e = false -> In (t, e) (p_log q) <-> In (t, e) (p_log p)).
    { intros t e D. destruct L as [->|(x&Dx&->)]; [reflexivity|]. cbn. split; [|auto]. intros [E|E]; auto. injection E as _ <-. congruence. }
    assert (LO : outs (p_log q) = outs (p_log p)).
    { destruct L as [->|(x&Dx&->)]; [reflexivity|]. now apply outs_dull. }
    split.
    - intros c r d I. rewrite LO. destruct (B c r d (C _ _ _ I)) as (ta&I1&E&O1). exists ta. rewrite LI by auto. auto.
    - exact ND.
    - intros t c r I. apply LI in I; auto. destruct (R t c r I) as (ta&I1&E). exists ta. rewrite LI by auto. auto.
    - intros t c r I. apply LI in I; auto. destruct (H t c r I) as (ta&I1&E). exists ta. rewrite LI by auto. auto.
    - intros t c t' c' r I J. apply LI in I; auto. apply LI in J; auto. eauto.
    - rewrite LO. exact O.
    - intros G t c r I. apply LI in I; auto. rewrite LO. destruct M as [M|(G'&M)]; [contradiction|].
      destruct (A G' t c r I); auto.
    - destruct L as [->|(x&_&->)]; [eapply sorted_le; eauto|]. cbn. split; [exact T|exact S].
  Qed.

  Lemma gone_step p e : requests_inv p -> dull e = true -> requests_inv (gone e p).
  Proof.
    intros I D. apply (dull_step p); auto; cbn; try tauto.
    - right. exists e. auto.
    - constructor.
    - lia.
  Qed.
  Lemma log_dull p e : requests_inv p -> dull e = true -> p_main p <> MGone -> requests_inv (log_event e p).
  Proof.
    intros I D G. apply (dull_step p); auto; cbn; auto.
    - right. exists e. auto.
    - apply (ri_nodup _ I).
    - lia.
  Qed.

  (** After the end there are no connections and no listener *)
  Definition quiet (p : proc) : Prop := p_main p = MGone -> p_conns p = [] /\ p_listener p = LClosed.

  Lemma NoDup_drop {A} (l1 : list A) x l2 : NoDup (l1 ++ x :: l2) -> NoDup (l1 ++ l2) /\ ~ In x (l1 ++ l2).
  Proof. intros H. split; [eapply NoDup_remove_1; eauto|eapply NoDup_remove_2; eauto]. Qed.

  (** A request gets its outcome *)
  Lemma outcome_step p e c r d l1 l2 k : requests_inv p -> p_conns p = l1 ++ Conn c (Some (r, d)) :: l2 ->
    (k = [] \/ k = [Conn c None]) ->
    (e = EReply c r /\ p_now p <= d /\ panics r = false) \/ (e = EHangUp c r /\ (d < p_now p \/ panics r = true)) ->
    p_main p <> MGone -> requests_inv (conns (l1 ++ k ++ l2) (log_event e p)).
  Proof.
    intros [B N R H U O A S] E K V G.
    destruct (B c r d) as (ta&Ia&Ed&NO). { rewrite E. apply in_or_app. right. now left. }
    assert (BQ : busy (l1 ++ k ++ l2) = busy l1 ++ busy l2). { rewrite !busy_app. destruct K as [->| ->]; reflexivity. }
    rewrite E, busy_app in N. cbn [busy] in N. destruct (NoDup_drop _ _ _ N) as [N1 N2].
    assert (D : outs ((p_now p, e) :: p_log p) = r :: outs (p_log p)) by (destruct V as [(->&_)|(->&_)]; reflexivity).
    assert (LI : forall t e', (forall c r, e' <> EReply c r) -> (forall c r, e' <> EHangUp c r) ->
                 In (t, e') ((p_now p, e) :: p_log p) <-> In (t, e') (p_log p)).
    { intros t e' X Y. cbn. split; [|auto]. intros [Z|Z]; auto. injection Z as _ Z. destruct V as [(->&_)|(->&_)]; subst; congruence. }
    assert (TA : ta <= p_now p) by (eapply sorted_In; eauto).
    split; cbn [p_conns conns log_event p_log p_main p_now]; rewrite ?BQ, ?D.
    - intros c' r' d' I.
      assert (I1 : In (Conn c' (Some (r', d'))) (l1 ++ l2)).
      { apply in_app_or in I. apply in_or_app. destruct I as [I|I]; auto. apply in_app_or in I. destruct I as [I|I]; auto.
        destruct K as [->| ->]; [destruct I|]. destruct I as [I|[]]. discriminate. }
      destruct (B c' r' d') as (ta'&Ia'&Ed'&NO'). { rewrite E. apply in_app_or in I1. apply in_or_app. destruct I1; auto. right. now right. }
      exists ta'. split; [now right|]. split; [exact Ed'|]. intros [X|X]; auto. subst r'.
      apply N2. rewrite <- busy_app. apply busy_In. eauto.
    - exact N1.
    - intros t c' r' I. destruct I as [I|I].
      + injection I as <- I. destruct V as [(->&T&P)|(->&_)]; [|discriminate]. injection I as <- <-. exists ta. split; [now right|]. subst d. split; [lia|exact P].
      + destruct (R t c' r' I) as (ta'&I1&X). exists ta'. split; [now right|exact X].
    - intros t c' r' I. destruct I as [I|I].
      + injection I as <- I. destruct V as [(->&T&P)|(->&T)]; [discriminate|]. injection I as <- <-. exists ta. split; [now right|]. subst d. exact T.
      + destruct (H t c' r' I) as (ta'&I1&X). exists ta'. split; [now right|exact X].
    - intros t c1 t' c2 r' I J. apply LI in I; try discriminate. apply LI in J; try discriminate. eauto.
    - constructor; auto.
    - intros _ t c' r' I. apply LI in I; try discriminate. destruct (A G t c' r' I) as [X|X]; [left; now right|].
      rewrite E, busy_app in X. cbn [busy] in X. apply in_app_or in X. destruct X as [X|[X|X]].
      + right. apply in_or_app. auto.
      + left. now left.
      + right. apply in_or_app. auto.
    - cbn [sorted]. split; [lia|exact S].
  Qed.

  Lemma requests_step p q : requests_inv p -> quiet p -> pstep f panics deadly p q -> requests_inv q.
  Proof.
    intros I Q ST.
    assert (NG : p_conns p <> [] \/ p_listener p <> LClosed -> p_main p <> MGone).
    { intros X G. destruct (Q G) as [X1 X2]. destruct X; contradiction. }
    pose proof I as [B N R H U O A S].
    destruct ST.
    - apply (dull_step p); auto; cbn; auto; try (right; split; [congruence|auto]); lia.
    - apply (dull_step p); auto; cbn; auto; try (right; exists EListen; auto); try (right; split; [apply NG; right; congruence|auto]); lia.
    - apply (dull_step p); auto; cbn; auto; try (right; exists EFails; auto); try (right; split; [apply NG; right; congruence|auto]); lia.
    - apply (dull_step p); auto; cbn; auto.
      + right. exists (EAccept c). auto.
      + intros c' r d [X|X]; [discriminate|auto].
      + right. split; [apply NG; right; congruence|auto].
      + lia.
    - (* a request *)
      pose proof (asked_before_In _ _ H1) as FR.
      assert (NO : ~ In r (outs (p_log p))).
      { intros X. apply outs_In in X. destruct X as (t&c'&[X|X]); [apply R in X|apply H in X]; destruct X as (ta&X&_); eapply FR; eauto. }
      assert (NB : ~ In r (busy (p_conns p))).
      { intros X. apply busy_In in X. destruct X as (c'&d&X). apply B in X. destruct X as (ta&X&_); eapply FR; eauto. }
      assert (BB : busy (p_conns p) = busy l1 ++ busy l2) by (rewrite H0, busy_app; reflexivity).
      assert (G : p_main p <> MGone). { apply NG. left. rewrite H0. now destruct l1. }
      split; cbn [p_conns conns log_event p_log p_main p_now outs].
      + intros c' r' d I1. apply in_app_or in I1. destruct I1 as [I1|[I1|I1]].
        * destruct (B c' r' d) as (ta&X&Y). { rewrite H0. apply in_or_app. auto. } exists ta. split; [now right|exact Y].
        * injection I1 as <- <- <-. exists (p_now p). split; [now left|]. split; [reflexivity|exact NO].
        * destruct (B c' r' d) as (ta&X&Y). { rewrite H0. apply in_or_app. right. now right. } exists ta. split; [now right|exact Y].
      + rewrite busy_app. cbn [busy]. rewrite BB in N, NB.
        apply (NoDup_Add (a := r) (l := busy l1 ++ busy l2)); [|split; assumption]. apply Add_app.
      + intros t c' r' [X|X]; [discriminate|]. destruct (R t c' r' X) as (ta&Y&Z). exists ta. split; [now right|exact Z].
      + intros t c' r' [X|X]; [discriminate|]. destruct (H t c' r' X) as (ta&Y&Z). exists ta. split; [now right|exact Z].
      + intros t c1 t' c2 r' [X|X] [Y|Y].
        * injection X as <- <- <-. injection Y as <- <-. auto.
        * injection X as <- <- <-. exfalso. eapply FR; eauto.
        * injection Y as <- <- <-. exfalso. eapply FR; eauto.
        * eauto.
      + exact O.
      + intros _ t c' r' [X|X].
        * injection X as _ _ <-. right. rewrite busy_app. apply in_or_app. right. now left.
        * destruct (A G t c' r' X) as [Y|Y]; auto. right. rewrite BB in Y. rewrite busy_app. apply in_app_or in Y. apply in_or_app.
          destruct Y; auto. right. now right.
      + cbn [sorted]. split; [lia|exact S].
    - eapply outcome_step; eauto.
      + destruct (shutting (p_main p)); auto.
      + apply NG. left. rewrite H0. now destruct l1.
    - apply (outcome_step p (EHangUp c r) c r d l1 l2 []); auto. apply NG. left. rewrite H0. now destruct l1.
    - apply (outcome_step p (EHangUp c r) c r d l1 l2 []); auto. apply NG. left. rewrite H0. now destruct l1.
    - apply gone_step; auto.
    - assert (BB : busy (l1 ++ l2) = busy (p_conns p)) by (rewrite H0, !busy_app; reflexivity).
      apply (dull_step p); auto; cbn; auto; rewrite ?BB; auto.
      + intros c' r d X. rewrite H0. apply in_app_or in X. apply in_or_app. destruct X; auto. right. now right.
      + right. split; [|auto]. apply NG. left. rewrite H0. now destruct l1.
      + lia.
    - apply (dull_step p); auto; cbn; auto; try (right; split; [congruence|auto]); lia.
    - apply gone_step; auto.
    - apply gone_step; auto.
    - apply (dull_step p); auto; cbn; auto; try (right; split; [congruence|auto]); lia.
    - apply (dull_step p); auto; cbn; auto; try (right; split; [congruence|auto]); lia.
    - apply (dull_step p); auto; cbn; auto; try (right; split; [congruence|auto]); lia.
    - apply gone_step; auto.
    - apply gone_step; auto.
    - apply (dull_step p); auto; cbn; auto; try (right; exists (ESignal SInt); auto); lia.
    - apply gone_step; auto. apply log_dull; auto.
    - apply gone_step; auto. apply log_dull; auto.
    - apply (dull_step p); auto; cbn; auto; [|lia]. right. split; [|auto]. intros G. unfold urgent in H0. rewrite G in H0. discriminate.
  Qed.

  Lemma quiet_step p q : quiet p -> pstep f panics deadly p q -> quiet q.
  Proof.
    intros Q ST. unfold quiet in *. destruct ST; cbn; intros G; try congruence; try (now auto); try (apply Q in G; destruct G as [G1 G2]; try congruence).
    - rewrite G1 in H. destruct l1; discriminate.
    - rewrite G1 in H. destruct l1; discriminate.
    - rewrite G1 in H. destruct l1; discriminate.
    - rewrite G1 in H. destruct l1; discriminate.
    - rewrite G1 in H. destruct l1; discriminate.
  Qed.

  Lemma run_requests p : prun f panics deadly initial p -> requests_inv p /\ quiet p.
  Proof.
    intros R. remember initial as p0. induction R as [p|p q r R IH ST].
    - subst. split; [apply requests_initial|intros X; discriminate X].
    - destruct (IH Heqp0) as [I Q]. split; [eapply requests_step; eauto|eapply quiet_step; eauto].
  Qed.

  (** ** The invariant of [main] *)
  Definition phase_inv (p : proc) : Prop :=
    let fi := first_int (p_log p) in
    match p_main p with
    | MSetup => p_log p = [] /\ p_listener p = LNone /\ p_conns p = []
    | MStarted => fi = None
    | MParsed w => fi = None /\ patience f = Some w
    | MWaiting w => (fi = if p_signal p then Some (p_now p) else None) /\ patience f = Some w
    | MStopping d => fi = Some (p_now p) /\ exists w, patience f = Some w /\ d = p_now p + w
    | MDraining d => exists t w, fi = Some t /\ patience f = Some w /\ d = t + w /\ t <= p_now p <= t + Z.max 0 w /\ p_listener p <> LListening
    | MGone => exists e l, p_log p = (p_now p, e) :: l /\
        (forall t n, ~ In (t, EExit n) l) /\ (forall t, ~ In (t, EKilled) l) /\
        (e = EKilled \/ exists n, e = EExit n) /\
        (e = EKilled -> exists s l', l = (p_now p, ESignal s) :: l' /\ (s = SInt -> first_int l' = None)) /\
        (forall n, e = EExit n -> harmless deadly ->
           match patience f with
           | Some w => n = 0%nat /\ exists t, first_int l = Some t /\ t <= p_now p <= t + Z.max 0 w /\
               ((forall u c r, In (u, ERequest c r) l -> In r (outs l)) \/ t + w <= p_now p)
           | None => n = match f with FHelp => 0%nat | _ => 2%nat end /\ first_int l = None
           end)
    end /\
    (p_main p <> MGone -> (forall t n, ~ In (t, EExit n) (p_log p)) /\ (forall t, ~ In (t, EKilled) (p_log p))) /\
    (forall t c t0, In (t, EAccept c) (p_log p) -> fi = Some t0 -> t <= t0) /\
    (forall t0 w, fi = Some t0 -> patience f = Some w -> p_now p <= t0 + Z.max 0 w).

  Lemma fi_cons t e l : e <> ESignal SInt -> first_int ((t, e) :: l) = first_int l.
  Proof. cbn. destruct (first_int l); auto. destruct e as [| | | | | |[]| |]; auto. congruence. Qed.
  Lemma fi_int t l : first_int ((t, ESignal SInt) :: l) = match first_int l with Some t0 => Some t0 | None => Some t end.
  Proof. reflexivity. Qed.
  Lemma idle_busy cs : forallb idle cs = true -> busy cs = [].
  Proof. induction cs as [|[c [[r d]|]] cs IH]; cbn; auto; discriminate. Qed.

  (** The first interrupt, where [main] is at *)
  Lemma phase_fi p : phase_inv p -> quiet p -> p_listener p = LListening -> forall t0, first_int (p_log p) = Some t0 -> t0 = p_now p.
  Proof.
    intros (P&_) Q L t0 E. destruct (p_main p) eqn:M.
    - destruct P as (_&P&_). congruence.
    - congruence.
    - destruct P. congruence.
    - destruct P as [P _]. rewrite E in P. destruct (p_signal p); congruence.
    - destruct P as [P _]. congruence.
    - destruct P as (t&w&_&_&_&_&P). contradiction.
    - destruct (Q M). congruence.
  Qed.

  (** Steps of connections and listener: [main] stays where it is *)
  Definition plain (e : event) : Prop := e <> ESignal SInt /\ (forall n, e <> EExit n) /\ e <> EKilled /\ (forall c, e <> EAccept c).
  Lemma side_step p q : phase_inv p -> p_main p <> MGone -> p_main p <> MSetup -> p_main q = p_main p -> p_now q = p_now p -> p_signal q = p_signal p ->
    (p_log q = p_log p \/ exists e, plain e /\ p_log q = (p_now p, e) :: p_log p) ->
    (p_listener q = p_listener p \/ (p_listener q = LListening -> shutting (p_main p) = false)) ->
    phase_inv q.
  Proof.
    intros (P&G&A&C) NG NS EM EN ES L LL. unfold phase_inv. rewrite EM, EN, ES.
    assert (EF : first_int (p_log q) = first_int (p_log p)). { destruct L as [->|(e&(X&_)&->)]; auto. now apply fi_cons. }
    rewrite EF.
    assert (LI : forall t e, ~ plain e -> In (t, e) (p_log q) -> In (t, e) (p_log p)).
    { intros t e NP. destruct L as [->|(x&PX&->)]; auto. intros [X|X]; auto. injection X as _ <-. contradiction. }
    split; [|split; [|split]].
    - destruct (p_main p) eqn:M; auto; try congruence.
      destruct P as (t&w&P1&P2&P3&P4&P5). exists t, w. repeat (split; auto). intros X. destruct LL as [LL|LL]; [congruence|]. specialize (LL X). discriminate.
    - intros _. destruct (G NG) as [G1 G2]. split.
      + intros t n X. apply LI in X; [now apply (G1 t n)|]. intros (_&Y&_). now apply (Y n).
      + intros t X. apply LI in X; [now apply (G2 t)|]. intros (_&_&Y&_). now apply Y.
    - intros t c t0 X. apply LI in X; [now apply (A t c t0)|]. intros (_&_&_&Y). now apply (Y c).
    - auto.
  Qed.

  (** The process exits *)
  Lemma exit_step p n : phase_inv p -> p_main p <> MGone ->
    (harmless deadly -> match patience f with
       | Some w => n = 0%nat /\ exists t, first_int (p_log p) = Some t /\ t <= p_now p <= t + Z.max 0 w /\
           ((forall u c r, In (u, ERequest c r) (p_log p) -> In r (outs (p_log p))) \/ t + w <= p_now p)
       | None => n = match f with FHelp => 0%nat | _ => 2%nat end /\ first_int (p_log p) = None end) ->
    phase_inv (gone (EExit n) p).
  Proof.
    intros (P&G&A&C) NG X. destruct (G NG) as [G1 G2].
    assert (EF : first_int (p_log (gone (EExit n) p)) = first_int (p_log p)) by (apply fi_cons; discriminate).
    unfold phase_inv. rewrite EF. cbn [gone p_main listening conns goto log_event p_log p_now p_listener p_conns].
    split; [|split; [|split]].
    - exists (EExit n), (p_log p). repeat (split; auto).
      + right. eauto.
      + discriminate.
      + intros m [= <-]. exact X.
    - congruence.
    - intros t c t0 [Y|Y]; [discriminate|eauto].
    - auto.
  Qed.

  Lemma kill_step p s : phase_inv p -> sorted (p_now p) (p_log p) -> p_main p <> MGone -> (s = SInt -> first_int (p_log p) = None) ->
    phase_inv (gone EKilled (log_event (ESignal s) p)).
  Proof.
    intros (P&G&A&C) S NG X. destruct (G NG) as [G1 G2].
    assert (EF : first_int (p_log (gone EKilled (log_event (ESignal s) p))) = first_int ((p_now p, ESignal s) :: p_log p)) by (apply fi_cons; discriminate).
    unfold phase_inv. rewrite EF. cbn [gone p_main listening conns goto log_event p_log p_now p_listener p_conns].
    assert (LI : forall t e, (forall s, e <> ESignal s) -> In (t, e) ((p_now p, ESignal s) :: p_log p) -> In (t, e) (p_log p)).
    { intros t e D [Y|Y]; auto. injection Y as _ Y. exfalso. now apply (D s). }
    split; [|split; [|split]].
    - exists EKilled, ((p_now p, ESignal s) :: p_log p). split; [reflexivity|]. split; [|split; [|split; [|split]]].
      + intros t n Y. apply LI in Y; [|discriminate]. now apply (G1 t n).
      + intros t Y. apply LI in Y; [|discriminate]. now apply (G2 t).
      + auto.
      + intros _. exists s, (p_log p). auto.
      + discriminate.
    - congruence.
    - intros t c t0 [Y|Y]; [discriminate|]. apply LI in Y; [|discriminate]. intros E. destruct s.
      + rewrite fi_int, (X eq_refl) in E. injection E as <-. eapply sorted_In; eauto.
      + rewrite fi_cons in E by discriminate. eauto.
      + rewrite fi_cons in E by discriminate. eauto.
    - intros t0 w E W. destruct s.
      + rewrite fi_int, (X eq_refl) in E. injection E as <-. lia.
      + rewrite fi_cons in E by discriminate. eauto.
      + rewrite fi_cons in E by discriminate. eauto.
  Qed.

  (** [main] goes on without logging anything *)
  Lemma main_step p q : phase_inv p -> p_main p <> MGone -> p_main q <> MGone -> p_log q = p_log p -> p_now q = p_now p ->
    (let fi := first_int (p_log q) in
     match p_main q with
     | MSetup => p_log q = [] /\ p_listener q = LNone /\ p_conns q = []
     | MStarted => fi = None
     | MParsed w => fi = None /\ patience f = Some w
     | MWaiting w => (fi = if p_signal q then Some (p_now q) else None) /\ patience f = Some w
     | MStopping d => fi = Some (p_now q) /\ exists w, patience f = Some w /\ d = p_now q + w
     | MDraining d => exists t w, fi = Some t /\ patience f = Some w /\ d = t + w /\ t <= p_now q <= t + Z.max 0 w /\ p_listener q <> LListening
     | MGone => True
     end) -> phase_inv q.
  Proof.
    intros (P&G&A&C) N1 N2 EL EN X. unfold phase_inv. split; [|split; [|split]].
    - destruct (p_main q); auto. congruence.
    - intros _. rewrite EL. auto.
    - rewrite EL. auto.
    - rewrite EL, EN. auto.
  Qed.

  Lemma phase_step p q : requests_inv p -> quiet p -> (p_signal p = true -> notified (p_main p) = true \/ p_main p = MGone) ->
    phase_inv p -> pstep f panics deadly p q -> phase_inv q.
  Proof.
    intros RI Q SG I ST.
    pose proof (ri_sorted _ RI) as S.
    assert (NG : p_conns p <> [] \/ p_listener p <> LClosed -> p_main p <> MGone).
    { intros X G. destruct (Q G) as [X1 X2]. destruct X; contradiction. }
    assert (NS : p_conns p <> [] \/ p_listener p <> LNone -> p_main p <> MSetup).
    { intros X G. destruct I as (P&_). rewrite G in P. destruct P as (_&P1&P2). destruct X; contradiction. }
    assert (CN : forall l1 (x : conn) l2, p_conns p = l1 ++ x :: l2 -> p_conns p <> []).
    { intros l1 x l2 ->. now destruct l1. }
    pose proof I as (P&G&A&C).
    destruct ST.
    - apply (main_step p); cbn; auto; try congruence. rewrite H in P. destruct P as (->&_). reflexivity.
    - apply (side_step p); cbn; auto.
      + apply NG. right. congruence.
      + apply NS. right. congruence.
      + right. exists EListen. split; [|reflexivity]. repeat split; discriminate.
    - apply (side_step p); cbn; auto.
      + apply NG. right. congruence.
      + apply NS. right. congruence.
      + right. exists EFails. split; [|reflexivity]. repeat split; discriminate.
      + right. discriminate.
    - (* a connection is accepted *)
      assert (NG' : p_main p <> MGone) by (apply NG; right; congruence).
      assert (NS' : p_main p <> MSetup) by (apply NS; right; congruence).
      assert (EF : first_int (p_log (conns (Conn c None :: p_conns p) (log_event (EAccept c) p))) = first_int (p_log p)) by (apply fi_cons; discriminate).
      unfold phase_inv. rewrite EF. cbn [p_main listening conns goto log_event p_log p_now p_listener p_conns p_signal].
      split; [|split; [|split]].
      + destruct (p_main p); auto; congruence.
      + intros _. destruct (G NG') as [G1 G2]. split; [intros t n [X|X]|intros t [X|X]]; try discriminate; [now apply (G1 t n)|now apply (G2 t)].
      + intros t c' t0 [X|X] E; [|eauto]. injection X as <- <-. rewrite (phase_fi p I Q H t0 E). lia.
      + exact C.
    - apply (side_step p); cbn; eauto 6. right. exists (ERequest c r). split; [|reflexivity]. repeat split; discriminate.
    - apply (side_step p); cbn; eauto 6. right. exists (EReply c r). split; [|reflexivity]. repeat split; discriminate.
    - apply (side_step p); cbn; eauto 6. right. exists (EHangUp c r). split; [|reflexivity]. repeat split; discriminate.
    - apply (side_step p); cbn; eauto 6. right. exists (EHangUp c r). split; [|reflexivity]. repeat split; discriminate.
    - apply exit_step; eauto. intros X. rewrite (X r) in H0. discriminate.
    - apply (side_step p); cbn; eauto 6.
    - apply (main_step p); cbn; auto; try congruence. rewrite H in P. split; [exact P|]. rewrite H0. destruct w; reflexivity.
    - apply exit_step; auto; try congruence. intros _. rewrite H in P. rewrite H0. cbn. auto.
    - apply exit_step; auto; try congruence. intros _. rewrite H in P. rewrite H0. cbn. auto.
    - apply (main_step p); cbn; auto; try congruence. rewrite H in P. destruct P as [P W]. split; [|exact W].
      destruct (p_signal p) eqn:SS; [|exact P]. destruct (SG eq_refl) as [X|X]; [rewrite H in X; discriminate|congruence].
    - apply (main_step p); cbn; auto; try congruence. rewrite H, H0 in P. destruct P as [P W]. eauto.
    - apply (main_step p); cbn; auto; try congruence. rewrite H in P. destruct P as (P&w&W&D). exists (p_now p), w.
      repeat (split; auto); try lia. destruct (p_listener p); discriminate.
    - apply exit_step; auto; try congruence. intros _. rewrite H in P. destruct P as (t&w&F&W&D&T&_). rewrite W. split; [reflexivity|].
      exists t. split; [exact F|]. split; [exact T|]. left. intros u c r X. destruct (ri_all _ RI) with (t := u) (c := c) (r := r) as [Y|Y]; auto; try congruence.
      rewrite (idle_busy _ H0) in Y. destruct Y.
    - apply exit_step; auto; try congruence. intros _. rewrite H in P. destruct P as (t&w&F&W&D&T&_). rewrite W. split; [reflexivity|].
      exists t. split; [exact F|]. split; [exact T|]. right. lia.
    - (* an interrupt *)
      unfold phase_inv. cbn [p_main listening conns goto log_event p_log p_now p_listener p_conns p_signal holding].
      rewrite fi_int. destruct (G H) as [G1 G2].
      split; [|split; [|split]].
      + destruct (p_main p) eqn:M; try discriminate.
        * destruct P as [P W]. rewrite P. split; [now destruct (p_signal p)|exact W].
        * destruct P as [P W]. rewrite P. auto.
        * destruct P as (t&w&P&R). rewrite P. exists t, w. auto.
      + intros _. split; [intros t n [X|X]|intros t [X|X]]; try discriminate; [now apply (G1 t n)|now apply (G2 t)].
      + intros t c t0 [X|X] E; [discriminate|]. destruct (first_int (p_log p)) eqn:F; injection E as <-; [eauto|]. eapply sorted_In; eauto.
      + intros t0 w E W. destruct (first_int (p_log p)) eqn:F; injection E as <-; [eauto|]. lia.
    - apply kill_step; auto. intros _. destruct (p_main p); try discriminate; try tauto.
      + now destruct P as (->&_).
    - apply kill_step; auto. congruence.
    - unfold phase_inv. cbn [p_main listening conns goto log_event p_log p_now p_listener p_conns p_signal tick].
      assert (NF : p_main p <> MGone) by (intros X; unfold urgent in H; rewrite X in H; discriminate).
      destruct (p_main p) eqn:M; unfold urgent in H; rewrite M in H; try discriminate; try tauto.
      + destruct P as (->&P). cbn. repeat split; auto; intros; try tauto; discriminate.
      + rewrite H in P. destruct P as [P W]. rewrite H, P. repeat (split; auto). all: intros; discriminate.
      + destruct P as (t&w&P1&P2&P3&P4&P5). apply Z.leb_gt in H. rewrite P1. split; [|split; [|split]].
        * exists t, w. repeat (split; auto); lia.
        * intros _. apply G. congruence.
        * intros u c t0 X E. apply (A u c t0 X). congruence.
        * intros t0 w0 [= <-] W. rewrite P2 in W. injection W as <-. lia.
  Qed.

  Lemma signal_step p q : (p_signal p = true -> notified (p_main p) = true \/ p_main p = MGone) -> pstep f panics deadly p q ->
    (p_signal q = true -> notified (p_main q) = true \/ p_main q = MGone).
  Proof.
    intros S ST. destruct ST; cbn; auto; intros X; try (rewrite H in S; cbn in S; destruct (S X); discriminate); try discriminate.
  Qed.

  Record process_inv (p : proc) : Prop := {
    pi_requests : requests_inv p;
    pi_quiet : quiet p;
    pi_phase : phase_inv p;
    pi_signal : p_signal p = true -> notified (p_main p) = true \/ p_main p = MGone }.

  Theorem process_ok p : prun f panics deadly initial p -> process_inv p.
  Proof.
    intros R. remember initial as p0. induction R as [p|p q r R IH ST].
    - subst. split.
      + apply requests_initial.
      + intros X; discriminate X.
      + unfold phase_inv. cbn. repeat split; auto; try discriminate.
      + discriminate.
    - destruct (IH Heqp0) as [I Q P S]. split.
      + eapply requests_step; eauto.
      + eapply quiet_step; eauto.
      + eapply phase_step; eauto.
      + eapply signal_step; eauto.
  Qed.

  (** ** Running on *)
  Notation run := (prun f panics deadly).
  Lemma run_trans p q r : run p q -> run q r -> run p r.
  Proof. intros R1 R2. revert R1. induction R2 as [q|q r s R2 IH ST]; intros R1; [exact R1|]. exact (prun_step f panics deadly p r s (IH R1) ST). Qed.
  Lemma run_one p q : pstep f panics deadly p q -> run p q.
  Proof. intros S. eapply prun_step; [constructor|exact S]. Qed.
  Lemma run_now p q : run p q -> p_now p <= p_now q.
  Proof. intros R. induction R as [p|p q r R IH ST]; [lia|]. destruct ST; cbn; auto; lia. Qed.
  Lemma run_log p q t e : run p q -> In (t, e) (p_log q) -> In (t, e) (p_log p) \/ p_now p <= t.
  Proof.
    intros R. induction R as [p|p q r R IH ST]; [auto|]. pose proof (run_now _ _ R) as T.
    destruct ST; cbn; auto; intros X; repeat (destruct X as [X|X]; [injection X as <- _; auto|]); auto.
  Qed.
  Lemma run_keeps p q t e : run p q -> In (t, e) (p_log p) -> In (t, e) (p_log q).
  Proof. intros R. induction R as [p|p q r R IH ST]; [auto|]. intros X. specialize (IH X). destruct ST; cbn; auto. Qed.

  Definition ticks (n : nat) (p : proc) : proc :=
    Proc (p_now p + Z.of_nat n) (p_main p) (p_listener p) (p_signal p) (p_conns p) (p_log p).
  Lemma run_ticks n p : (forall k, (k < n)%nat -> urgent (ticks k p) = false) -> run p (ticks n p).
  Proof.
    induction n as [|n IH]; intros H.
    - replace (ticks 0 p) with p; [constructor|]. destruct p; unfold ticks; cbn. f_equal. lia.
    - eapply prun_step; [apply IH; intros k K; apply H; lia|].
      replace (ticks (S n) p) with (tick (ticks n p)); [constructor; apply H; lia|].
      unfold ticks, tick; cbn. f_equal. lia.
  Qed.
  Lemma drain_ends p d : p_main p = MDraining d -> exists q, run p q /\ exists t, In (t, EExit 0) (p_log q).
  Proof.
    intros M. set (n := Z.to_nat (d - p_now p)).
    exists (gone (EExit 0) (ticks n p)). split.
    - eapply prun_step; [apply (run_ticks n)|].
      + intros k K. unfold urgent, ticks. cbn [p_main p_now]. rewrite M. apply Z.leb_gt. subst n. lia.
      + eapply p_expired; [exact M|]. unfold ticks. cbn [p_now]. subst n. lia.
    - exists (p_now p + Z.of_nat n). now left.
  Qed.
  Lemma interrupted_ends p t w : process_inv p -> first_int (p_log p) = Some t -> patience f = Some w -> p_main p <> MGone ->
    exists q, run p q /\ exists t, In (t, EExit 0) (p_log q).
  Proof.
    intros [_ _ (P&_) _] F W G. destruct (p_main p) eqn:M; try congruence.
    - destruct P as (P&_). rewrite P in F. discriminate.
    - destruct P as [P _]. congruence.
    - destruct P as [P W']. rewrite F in P. destruct (p_signal p) eqn:S; [|discriminate].
      pose proof (p_take f panics deadly p wait M S) as S1.
      set (p1 := holding false (goto (MStopping (p_now p + wait)) p)) in *.
      pose proof (p_stop f panics deadly p1 _ eq_refl) as S2.
      set (p2 := listening _ _) in S2. destruct (drain_ends p2 _ eq_refl) as (q&R&E).
      exists q. split; [|exact E]. eapply run_trans; [apply run_one; exact S1|]. eapply run_trans; [apply run_one; exact S2|exact R].
    - pose proof (p_stop f panics deadly p _ M) as S2.
      set (p2 := listening _ _) in S2. destruct (drain_ends p2 _ eq_refl) as (q&R&E).
      exists q. split; [|exact E]. eapply run_trans; [apply run_one; exact S2|exact R].
    - eapply drain_ends; eauto.
  Qed.

  (** ** The listener and the log *)
  Definition listener_inv (p : proc) : Prop :=
    let some e := exists t, In (t, e) (p_log p) in
    match p_listener p with
    | LNone | LStarting => ~ some EListen /\ ~ some EFails
    | LListening => some EListen /\ ~ some EFails
    | LFailed => some EFails /\ ~ some EListen
    | LClosed => ~ (some EListen /\ some EFails)
    end /\ (forall t c, In (t, EAccept c) (p_log p) -> exists t', t' <= t /\ In (t', EListen) (p_log p)) /\
    (p_main p = MSetup -> p_listener p = LNone).
  Lemma listener_log p q : listener_inv p ->
    (forall t e, e = EListen \/ e = EFails \/ (exists c, e = EAccept c) -> In (t, e) (p_log q) <-> In (t, e) (p_log p)) ->
    (p_listener q = p_listener p \/ p_listener q = LClosed \/ (p_listener p = LNone /\ p_listener q = LStarting)) ->
    (p_main q = MSetup -> p_main p = MSetup /\ p_listener q = p_listener p) -> listener_inv q.
  Proof.
    intros (A&B&C) E L M. split; [|split].
    - assert (EL : (exists t, In (t, EListen) (p_log q)) <-> (exists t, In (t, EListen) (p_log p))) by (split; intros (t&X); exists t; apply E in X; auto).
      assert (EF : (exists t, In (t, EFails) (p_log q)) <-> (exists t, In (t, EFails) (p_log p))) by (split; intros (t&X); exists t; apply E in X; auto).
      destruct L as [L|[L|[L1 L2]]].
      + rewrite L. destruct (p_listener p); rewrite ?EL, ?EF; tauto.
      + rewrite L. destruct (p_listener p); rewrite ?EL, ?EF; tauto.
      + rewrite L2. rewrite L1 in A. rewrite EL, EF. exact A.
    - intros t c X. apply E in X; [|eauto]. destruct (B t c X) as (t'&T&Y). exists t'. split; [exact T|]. apply E; auto.
    - intros X. destruct (M X) as [M1 M2]. rewrite M2. auto.
  Qed.
  Lemma listener_step p q : listener_inv p -> sorted (p_now p) (p_log p) -> pstep f panics deadly p q -> listener_inv q.
  Proof.
    intros I S ST. pose proof I as (A&B&C).
    assert (NI : forall (e' : event) t e l, (e = EListen \/ e = EFails \/ (exists c, e = EAccept c)) ->
      (e' <> EListen /\ e' <> EFails /\ forall c, e' <> EAccept c) -> In (t, e) ((p_now p, e') :: l) <-> In (t, e) l).
    { intros e' t e l V (X&Y&Z). cbn. split; [|auto]. intros [W|W]; auto. injection W as _ ->. destruct V as [->|[->|(c&->)]]; [congruence|congruence|]. exfalso. now apply (Z c). }
    destruct ST.
    - apply (listener_log p); cbn; auto; try tauto; try discriminate.
    - split; [|split]; cbn.
      + rewrite H in A. destruct A as [_ A]. split; [exists (p_now p); now left|]. intros (t&[X|X]); [discriminate|]. apply A. eauto.
      + intros t c [X|X]; [discriminate|]. destruct (B t c X) as (t'&T&Y). eauto.
      + intros M. rewrite (C M) in H. discriminate.
    - split; [|split]; cbn.
      + rewrite H in A. destruct A as [A _]. split; [exists (p_now p); now left|]. intros (t&[X|X]); [discriminate|]. apply A. eauto.
      + intros t c [X|X]; [discriminate|]. destruct (B t c X) as (t'&T&Y). eauto.
      + intros M. rewrite (C M) in H. discriminate.
    - rewrite H in A. destruct A as [(u&A) A']. split; [|split]; cbn.
      + rewrite H. split; [exists u; auto|]. intros (t&[X|X]); [discriminate|]. apply A'. eauto.
      + intros t c' [X|X]; [|destruct (B t c' X) as (t'&T&Y); eauto]. injection X as <- <-. exists u. split; [|auto]. eapply sorted_In; eauto.
      + auto.
    - apply (listener_log p); cbn [conns log_event p_log p_listener p_main]; auto. intros t e V. apply NI; [exact V|]. repeat split; discriminate.
    - apply (listener_log p); cbn [conns log_event p_log p_listener p_main]; auto. intros t e V. apply NI; [exact V|]. repeat split; discriminate.
    - apply (listener_log p); cbn [conns log_event p_log p_listener p_main]; auto. intros t e V. apply NI; [exact V|]. repeat split; discriminate.
    - apply (listener_log p); cbn [conns log_event p_log p_listener p_main]; auto. intros t e V. apply NI; [exact V|]. repeat split; discriminate.
    - apply (listener_log p); cbn [gone listening goto conns log_event p_log p_listener p_main]; auto; try discriminate. intros t e V. apply NI; [exact V|]. repeat split; discriminate.
    - apply (listener_log p); cbn; auto; tauto.
    - apply (listener_log p); cbn; auto; try tauto; discriminate.
    - apply (listener_log p); cbn [gone listening goto conns log_event p_log p_listener p_main]; auto; try discriminate. intros t e V. apply NI; [exact V|]. repeat split; discriminate.
    - apply (listener_log p); cbn [gone listening goto conns log_event p_log p_listener p_main]; auto; try discriminate. intros t e V. apply NI; [exact V|]. repeat split; discriminate.
    - apply (listener_log p); cbn; auto; try tauto; discriminate.
    - apply (listener_log p); cbn; auto; try tauto; discriminate.
    - apply (listener_log p); cbn; auto; try tauto; try discriminate. destruct (p_listener p); auto.
    - apply (listener_log p); cbn [gone listening goto conns log_event p_log p_listener p_main]; auto; try discriminate. intros t e V. apply NI; [exact V|]. repeat split; discriminate.
    - apply (listener_log p); cbn [gone listening goto conns log_event p_log p_listener p_main]; auto; try discriminate. intros t e V. apply NI; [exact V|]. repeat split; discriminate.
    - apply (listener_log p); cbn [holding log_event p_log p_listener p_main]; auto. intros t e V. apply NI; [exact V|]. repeat split; discriminate.
    - apply (listener_log p); cbn [gone listening goto conns log_event p_log p_listener p_main p_now]; auto; try discriminate.
      intros t e V. rewrite NI; [apply NI|..]; auto; repeat split; discriminate.
    - apply (listener_log p); cbn [gone listening goto conns log_event p_log p_listener p_main p_now]; auto; try discriminate.
      intros t e V. rewrite NI; [apply NI|..]; auto; repeat split; discriminate.
    - apply (listener_log p); cbn; auto; tauto.
  Qed.
  Lemma listener_ok p : run initial p -> listener_inv p.
  Proof.
    intros R. remember initial as p0. induction R as [p|p q r R IH ST].
    - subst. unfold listener_inv. cbn. split; [|split]; [|intros t c []|auto]. split; intros (t&[]).
    - subst. specialize (IH eq_refl). eapply listener_step; eauto. apply (ri_sorted _ (pi_requests _ (process_ok _ R))).
  Qed.

  (** ** Connections and requests were accepted *)
  Definition accepted_inv (p : proc) : Prop :=
    (forall k, In k (p_conns p) -> exists t, In (t, EAccept (c_id k)) (p_log p)) /\
    (forall t c r, In (t, ERequest c r) (p_log p) -> exists t', t' <= t /\ In (t', EAccept c) (p_log p)).
  Lemma accepted_keep p q : accepted_inv p -> (forall t e, In (t, e) (p_log p) -> In (t, e) (p_log q)) ->
    (forall t c r, In (t, ERequest c r) (p_log q) -> In (t, ERequest c r) (p_log p)) ->
    (forall k, In k (p_conns q) -> exists k', In k' (p_conns p) /\ c_id k' = c_id k) -> accepted_inv q.
  Proof.
    intros (A&B) L R C. split.
    - intros k K. destruct (C k K) as (k'&K'&<-). destruct (A k' K') as (t&X). eauto.
    - intros t c r X. apply R in X. destruct (B t c r X) as (t'&T&Y). eauto.
  Qed.
  Lemma accepted_step p q : accepted_inv p -> sorted (p_now p) (p_log p) -> pstep f panics deadly p q -> accepted_inv q.
  Proof.
    intros I S ST. pose proof I as (A&B).
    assert (SUB : forall l1 (x : conn) l2 k, p_conns p = l1 ++ x :: l2 -> In k (l1 ++ l2) -> In k (p_conns p)).
    { intros l1 x l2 k -> X. apply in_app_or in X. apply in_or_app. destruct X; auto. right. now right. }
    destruct ST; try (apply (accepted_keep p); cbn; auto; try (intros; tauto); try (intros ? ? ? [X|X]; [discriminate|exact X]);
      try (intros ? ? ? [X|[X|X]]; [discriminate|discriminate|exact X]); now eauto).
    - split; cbn.
      + intros k [<-|K]; [exists (p_now p); now left|]. destruct (A k K) as (t&X). eauto.
      + intros t c' r [X|X]; [discriminate|]. destruct (B t c' r X) as (t'&T&Y). eauto.
    - destruct (A (Conn c None)) as (t0&X0). { rewrite H. apply in_or_app. right. now left. }
      split; cbn.
      + intros k K. apply in_app_or in K. destruct K as [K|[<-|K]].
        * destruct (A k) as (t&X); [rewrite H; apply in_or_app; auto|]. eauto.
        * eauto.
        * destruct (A k) as (t&X); [rewrite H; apply in_or_app; right; now right|]. eauto.
      + intros t c' r' [X|X].
        * injection X as <- <- <-. exists t0. split; [|auto]. eapply sorted_In; eauto.
        * destruct (B t c' r' X) as (t'&T&Y). eauto.
    - apply (accepted_keep p); cbn; auto; try (intros ? ? ? [X|X]; [discriminate|exact X]).
      intros k K. apply in_app_or in K. destruct K as [K|K]; [exists k; split; [rewrite H; apply in_or_app; auto|auto]|].
      apply in_app_or in K. destruct K as [K|K].
      + exists (Conn c (Some (r, d))). split; [rewrite H; apply in_or_app; right; now left|]. destruct (shutting (p_main p)); [destruct K|]. destruct K as [<-|[]]. reflexivity.
      + exists k. split; [rewrite H; apply in_or_app; right; now right|auto].
  Qed.
  Lemma accepted_ok p : run initial p -> accepted_inv p.
  Proof.
    intros R. remember initial as p0. induction R as [p|p q r R IH ST].
    - subst. split; cbn; intros; tauto.
    - subst. specialize (IH eq_refl). eapply accepted_step; eauto. apply (ri_sorted _ (pi_requests _ (process_ok _ R))).
  Qed.

  (** ** A command line that cannot be used *)
  Definition at_once (p : proc) : Prop :=
    (forall t e, In (t, e) (p_log p) -> t = p_now p) /\
    match p_main p with
    | MSetup => p_log p = [] /\ p_listener p = LNone /\ p_conns p = []
    | MStarted | MGone => True
    | _ => False
    end.
  Lemma once_keep p q : at_once p -> p_now q = p_now p -> p_main q = p_main p -> p_main p <> MSetup ->
    (p_log q = p_log p \/ exists e, p_log q = (p_now p, e) :: p_log p) -> at_once q.
  Proof.
    intros (A&B) T M NS L. unfold at_once. rewrite T, M. split; [|now destruct (p_main p)].
    destruct L as [->|(e'&->)]; [exact A|]. intros t e [X|X]; [now injection X|eauto].
  Qed.
  Lemma once_gone p e : at_once p -> at_once (gone e p).
  Proof. intros (A&B). split; [|exact Logic.I]. cbn. intros t e' [X|X]; [now injection X|eauto]. Qed.
  Lemma once_log p e : at_once p -> forall t e', In (t, e') (p_log (log_event e p)) -> t = p_now p.
  Proof. intros (A&B) t e' [X|X]; [now injection X|eauto]. Qed.
  Lemma once_step p q : patience f = None -> at_once p -> pstep f panics deadly p q -> at_once q.
  Proof.
    intros W I ST. pose proof I as (A&B).
    assert (NS : p_conns p <> [] \/ p_listener p <> LNone -> p_main p <> MSetup).
    { intros X G. rewrite G in B. destruct B as (_&P1&P2). destruct X; contradiction. }
    assert (CN : forall l1 (x : conn) l2, p_conns p = l1 ++ x :: l2 -> p_main p <> MSetup).
    { intros l1 x l2 E. apply NS. left. rewrite E. now destruct l1. }
    destruct ST; try (rewrite H in B; contradiction); try (now apply once_gone); try (apply (once_keep p); cbn; now eauto).
    - split; [exact A|exact Logic.I].
    - apply (once_keep p); cbn; eauto. apply NS. right. congruence.
    - apply (once_keep p); cbn; eauto. apply NS. right. congruence.
    - apply (once_keep p); cbn; eauto. apply NS. right. congruence.
    - rewrite H0 in W. destruct w; discriminate.
    - destruct (p_main p); try discriminate; tauto.
    - split; [|exact Logic.I]. cbn. intros t e [X|[X|X]]; [now injection X|now injection X|eauto].
    - split; [|exact Logic.I]. cbn. intros t e [X|[X|X]]; [now injection X|now injection X|eauto].
    - unfold urgent in H. destruct (p_main p) eqn:M; try contradiction; try discriminate.
      destruct B as (B1&B). split; cbn; [rewrite B1; intros t e []|]. rewrite M. auto.
  Qed.
  Lemma once_ok p : patience f = None -> run initial p -> at_once p.
  Proof.
    intros W R. remember initial as p0. induction R as [p|p q r R IH ST].
    - subst. split; cbn; [intros t e []|auto].
    - eapply once_step; eauto.
  Qed.
End Process.
