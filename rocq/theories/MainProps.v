(** * MainProps: C139-C143, the life of the process *)
From Coq Require Import ZArith List Bool Lia.
From Verif Require Import MainModel MainSpec MainProofs.
Import ListNotations.
Local Open Scope Z_scope.

Lemma gone_iff f panics deadly p : process_inv f panics deadly p -> (ended p <-> p_main p = MGone).
Proof.
  intros [_ _ (P&G&_) _]. split.
  - intros (t&E). destruct (p_main p) eqn:M; auto; exfalso; (destruct G as [G1 G2]; [congruence|]);
      (destruct E as [(n&E)|E]; apply seen_In in E; [now apply (G1 t n)|now apply (G2 t)]).
  - intros M. rewrite M in P. destruct P as (e&l&L&_&_&[E|(n&E)]&_); exists (p_now p); subst e.
    + right. apply seen_In. rewrite L. now left.
    + left. exists n. apply seen_In. rewrite L. now left.
Qed.

(** ** C139: an interrupt ends the process *)
Theorem C139_interrupt_partial f panics deadly p before t after w :
  prun f panics deadly initial p -> first_interrupt p before t after -> patience f = Some w ->
  (* time does not go past what the process may wait *)
  clock p <= t + Z.max 0 w /\
  (* nothing is accepted later than the interrupt *)
  (forall t' c, seen p t' (EAccept c) -> t' <= t) /\
  (* a process that exits does so in that time, with status 0 *)
  (harmless deadly -> forall t' n, seen p t' (EExit n) -> n = 0%nat /\ t <= t' <= t + Z.max 0 w) /\
  (* it is killed by the interrupt only if that comes at once *)
  (only_interrupts p -> forall t', seen p t' EKilled -> t' = t /\ after = [(t, EKilled)]) /\
  (* as long as it has not ended it can go on to its end *)
  (~ ended p -> exists q t', prun f panics deadly p q /\ seen q t' (EExit 0)).
Proof.
  intros R FI W. pose proof (process_ok _ _ _ _ R) as I. pose proof I as [RI Q (P&G&A&C) S].
  pose proof (first_interrupt_int _ _ _ _ FI) as F.
  split; [|split; [|split; [|split]]].
  - apply C; auto.
  - intros t' c X. apply seen_In in X. eapply A; eauto.
  - intros H t' n X. apply seen_In in X.
    destruct (p_main p) eqn:M; try (exfalso; destruct G as [G1 G2]; [congruence|]; now apply (G1 t' n)).
    destruct P as (e&l&L&N1&N2&_&_&E). rewrite L in X. destruct X as [X|X]; [|exfalso; now apply (N1 t' n)].
    injection X as <- ->. specialize (E n eq_refl H). rewrite W in E. destruct E as (->&t0&F0&T&_). split; [reflexivity|].
    rewrite L, fi_cons in F by discriminate. rewrite F in F0. injection F0 as <-. exact T.
  - intros O t' X. apply seen_In in X.
    destruct (p_main p) eqn:M; try (exfalso; destruct G as [G1 G2]; [congruence|]; now apply (G2 t')).
    destruct P as (e&l&L&N1&N2&_&K&_). rewrite L in X. destruct X as [X|X]; [|exfalso; now apply (N2 t')].
    injection X as <- ->. destruct (K eq_refl) as (s&l'&->&FN).
    assert (s = SInt) as ->. { apply (O (p_now p)). apply seen_In. rewrite L. right. now left. }
    rewrite L, fi_cons, fi_int, (FN eq_refl) in F by discriminate. injection F as <-. split; [reflexivity|].
    destruct FI as [FI NB]. unfold history in FI. rewrite L in FI. cbn [rev] in FI. rewrite <- app_assoc in FI. cbn [app] in FI.
    assert (NL : forall u, ~ In (u, ESignal SInt) (rev l')). { intros u Y. apply in_rev in Y. apply first_int_none in Y; auto. }
    revert FI NL. generalize (rev l') as l1. clear - NB. intros l1. revert l1. induction before as [|x b IH]; intros l1 FI NL.
    + destruct l1 as [|y l1]; [injection FI as ->; reflexivity|]. injection FI as -> _. exfalso. apply (NL (p_now p)). now left.
    + destruct l1 as [|y l1].
      * injection FI as <- _. exfalso. apply (NB (p_now p)). now left.
      * injection FI as <- FI. apply (IH (fun t' H => NB t' (or_intror H)) l1 FI). intros u Y. apply (NL u). now right.
  - intros NE. destruct (interrupted_ends f panics deadly p t w I F W) as (q&RQ&t'&E).
    + intros X. apply NE. now apply (gone_iff f panics deadly).
    + exists q, t'. split; [exact RQ|now apply seen_In].
Qed.
Print Assumptions C139_interrupt_partial.

(** An interrupt while the server is being set up kills the process. *)
Definition early : proc := gone EKilled (log_event (ESignal SInt) initial).
Lemma early_run f panics deadly : prun f panics deadly initial early.
Proof. apply run_one. apply p_interrupt_early; [discriminate|reflexivity]. Qed.
Theorem C139_interrupt_refuted : ~ forall f panics deadly p before t after w,
  prun f panics deadly initial p -> first_interrupt p before t after -> patience f = Some w ->
  harmless deadly -> only_interrupts p -> ended p -> exists t', seen p t' (EExit 0).
Proof.
  intros H. destruct (H (FWait None) (fun _ => false) (fun _ => false) early [] 0 [(0, EKilled)] (seconds 15)) as (t&E); try reflexivity.
  - apply early_run.
  - split; [reflexivity|]. intros t' [].
  - intros r. reflexivity.
  - intros t s [X|[X|[]]]; [now injection X|discriminate].
  - exists 0. right. now (right; left).
  - destruct E as [E|[E|[]]]; discriminate.
Qed.
Print Assumptions C139_interrupt_refuted.

(** ** A server with a request in work when it is interrupted

    Two connections; the request of one is answered after 3 ns, that of the other is in work when
    the interrupt comes (at 5 ns) and is answered after 2 ns more; the process exits. *)
Ltac events X := unfold seen in X; cbn in X; repeat (destruct X as [X|X]; [first [discriminate X|now injection X]|]); destruct X.
Definition no (r : nat) : bool := false.
Ltac next R c := let S := fresh in pose proof c as S; refine (_ (prun_step _ _ _ _ _ _ R S)); clear R S; intros R;
  cbn -[Z.add] in R; cbv [Z.add Z.of_nat Pos.of_succ_nat Pos.succ Pos.add Pos.add_carry write_timeout Z.mul Pos.mul second default_wait] in R.
Definition patient : proc :=
  Proc 7 MGone LClosed false []
    [(7, EExit 0); (7, EReply 1 1); (5, ESignal SInt); (3, EReply 0 0); (0, ERequest 1 1); (0, ERequest 0 0); (0, EAccept 1); (0, EAccept 0); (0, EListen)].
Lemma patient_run : prun (FWait (Some 10)) no no initial patient.
Proof.
  pose proof (prun_refl (FWait (Some 10)) no no initial) as R.
  next R (p_setup (FWait (Some 10)) no no initial eq_refl).
  match type of R with prun _ _ _ _ ?p => next R (p_listen (FWait (Some 10)) no no p eq_refl eq_refl) end.
  match type of R with prun _ _ _ _ ?p => next R (p_accept (FWait (Some 10)) no no p 0 eq_refl eq_refl) end.
  match type of R with prun _ _ _ _ ?p => next R (p_accept (FWait (Some 10)) no no p 1 eq_refl eq_refl) end.
  match type of R with prun _ _ _ _ ?p => next R (p_request (FWait (Some 10)) no no p 0 0 [Conn 1 None] [] eq_refl eq_refl) end.
  match type of R with prun _ _ _ _ ?p => next R (p_request (FWait (Some 10)) no no p 1 1 [] [Conn 0 (Some (0%nat, 15000000000))] eq_refl eq_refl) end.
  match type of R with prun _ _ _ _ ?p => next R (p_flags (FWait (Some 10)) no no p (Some 10) eq_refl eq_refl) end.
  match type of R with prun _ _ _ _ ?p => next R (p_notify (FWait (Some 10)) no no p 10 eq_refl) end.
  do 3 match type of R with prun _ _ _ _ ?p => next R (p_tick (FWait (Some 10)) no no p eq_refl) end.
  match type of R with prun _ _ _ _ ?p => next R (p_reply (FWait (Some 10)) no no p 0 0 15000000000 [Conn 1 (Some (1%nat, 15000000000))] [] eq_refl ltac:(discriminate) eq_refl eq_refl) end.
  do 2 match type of R with prun _ _ _ _ ?p => next R (p_tick (FWait (Some 10)) no no p eq_refl) end.
  match type of R with prun _ _ _ _ ?p => next R (p_interrupt (FWait (Some 10)) no no p ltac:(discriminate) eq_refl) end.
  match type of R with prun _ _ _ _ ?p => next R (p_take (FWait (Some 10)) no no p 10 eq_refl eq_refl) end.
  match type of R with prun _ _ _ _ ?p => next R (p_stop (FWait (Some 10)) no no p 15 eq_refl) end.
  do 2 match type of R with prun _ _ _ _ ?p => next R (p_tick (FWait (Some 10)) no no p eq_refl) end.
  match type of R with prun _ _ _ _ ?p => next R (p_reply (FWait (Some 10)) no no p 1 1 15000000000 [] [Conn 0 None] eq_refl ltac:(discriminate) eq_refl eq_refl) end.
  match type of R with prun _ _ _ _ ?p => next R (p_drained (FWait (Some 10)) no no p 15 eq_refl eq_refl) end.
  exact R.
Qed.
Example C139_example : first_interrupt patient [(0, EListen); (0, EAccept 0); (0, EAccept 1); (0, ERequest 0 0); (0, ERequest 1 1); (3, EReply 0 0)]
    5 [(7, EReply 1 1); (7, EExit 0)] /\ patience (FWait (Some 10)) = Some 10 /\ harmless no /\ only_interrupts patient /\ ended patient.
Proof.
  split; [|split; [|split; [|split]]].
  - split; [reflexivity|]. intros t'. cbn. intuition discriminate.
  - reflexivity.
  - intros r. reflexivity.
  - intros t s X. events X.
  - exists 7. left. exists 0%nat. unfold seen. cbn. tauto.
Qed.

(** ** C140: requests in work are answered before the process ends *)
Theorem C140_in_work_partial f panics deadly p t w ta r :
  prun f panics deadly initial p -> harmless deadly -> patience f = Some w ->
  seen p t (EExit 0) -> asked p ta r ->
  (exists tr, answered p tr r /\ ta <= tr <= t) \/
  (exists tr, cut_off p tr r /\ (ta + seconds 15 < tr \/ panics r = true)) \/
  (exists before t0 after, first_interrupt p before t0 after /\ t = t0 + Z.max 0 w).
Proof.
  intros R HL W E (c&AK). pose proof (process_ok _ _ _ _ R) as I. pose proof I as [RI Q (P&G&A&C) S].
  apply seen_In in E. apply seen_In in AK.
  destruct (p_main p) eqn:M; try (exfalso; destruct G as [G1 G2]; [congruence|]; now apply (G1 t 0%nat)).
  destruct P as (e&l&L&N1&N2&_&_&X). rewrite L in E. destruct E as [E|E]; [|exfalso; now apply (N1 t 0%nat)].
  injection E as <- ->. specialize (X 0%nat eq_refl HL). rewrite W in X. destruct X as (_&t0&F&T&X).
  rewrite L in AK. destruct AK as [AK|AK]; [discriminate|].
  destruct X as [X|X].
  - apply X in AK as O. apply outs_In in O. destruct O as (u&c'&[O|O]).
    + left. exists u. assert (O' : In (u, EReply c' r) (p_log p)) by (rewrite L; now right).
      split; [exists c'; now apply seen_In|]. destruct (ri_reply _ _ RI _ _ _ O') as (ta'&I1&T1&_).
      destruct (ri_unique _ _ RI ta' c' ta c r) as [<- <-]; [exact I1|rewrite L; now right|].
      split; [lia|]. pose proof (ri_sorted _ _ RI) as SO. eapply sorted_In; eauto.
    + right. left. exists u. assert (O' : In (u, EHangUp c' r) (p_log p)) by (rewrite L; now right).
      split; [exists c'; now apply seen_In|]. destruct (ri_hangup _ _ RI _ _ _ O') as (ta'&I1&T1).
      destruct (ri_unique _ _ RI ta' c' ta c r) as [<- <-]; [exact I1|rewrite L; now right|exact T1].
  - right. right. assert (F' : first_int (p_log p) = Some t0) by (rewrite L, fi_cons by discriminate; exact F).
    assert (K : forall l, first_int l = Some t0 -> exists b a, rev l = b ++ (t0, ESignal SInt) :: a /\ forall t', ~ In (t', ESignal SInt) b).
    { clear. induction l as [|[u e] l IH]; cbn; [discriminate|]. destruct (first_int l) as [u0|] eqn:F.
      - intros [= ->]. destruct (IH eq_refl) as (b&a&E&N). exists b, (a ++ [(u, e)]). rewrite E, <- app_assoc. auto.
      - destruct e as [| | | | | |[]| |]; try discriminate. intros [= ->]. exists (rev l), []. split; [reflexivity|].
        intros t' X. apply in_rev in X. now apply (proj1 (first_int_none l) F t'). }
    destruct (K _ F') as (b&a&E&N). exists b, t0, a. split; [split; assumption|]. lia.
Qed.
Print Assumptions C140_in_work_partial.
Example C140_example : prun (FWait (Some 10)) no no initial patient /\ seen patient 7 (EExit 0) /\ asked patient 0 1.
Proof. split; [apply patient_run|]. split; [unfold seen; cbn; tauto|]. exists 1%nat. unfold seen. cbn. tauto. Qed.

(** SIGTERM - what a container is stopped with - ends the process with the request unanswered. *)
Definition cut_short : proc :=
  Proc 0 MGone LClosed false [] [(0, EKilled); (0, ESignal STerm); (0, ERequest 0 0); (0, EAccept 0); (0, EListen)].
Lemma cut_short_run : prun (FWait None) no no initial cut_short.
Proof.
  pose proof (prun_refl (FWait None) no no initial) as R.
  next R (p_setup (FWait None) no no initial eq_refl).
  match type of R with prun _ _ _ _ ?p => next R (p_listen (FWait None) no no p eq_refl eq_refl) end.
  match type of R with prun _ _ _ _ ?p => next R (p_flags (FWait None) no no p None eq_refl eq_refl) end.
  match type of R with prun _ _ _ _ ?p => next R (p_notify (FWait None) no no p 15000000000 eq_refl) end.
  match type of R with prun _ _ _ _ ?p => next R (p_accept (FWait None) no no p 0 eq_refl eq_refl) end.
  match type of R with prun _ _ _ _ ?p => next R (p_request (FWait None) no no p 0 0 [] [] eq_refl eq_refl) end.
  match type of R with prun _ _ _ _ ?p => next R (p_terminate (FWait None) no no p STerm ltac:(discriminate) ltac:(discriminate)) end.
  exact R.
Qed.
(** And with a wait of 0 the status is 0 all the same. *)
Definition hasty : proc :=
  Proc 0 MGone LClosed false [] [(0, EExit 0); (0, ESignal SInt); (0, ERequest 0 0); (0, EAccept 0); (0, EListen)].
Lemma hasty_run : prun (FWait (Some 0)) no no initial hasty.
Proof.
  pose proof (prun_refl (FWait (Some 0)) no no initial) as R.
  next R (p_setup (FWait (Some 0)) no no initial eq_refl).
  match type of R with prun _ _ _ _ ?p => next R (p_listen (FWait (Some 0)) no no p eq_refl eq_refl) end.
  match type of R with prun _ _ _ _ ?p => next R (p_flags (FWait (Some 0)) no no p (Some 0) eq_refl eq_refl) end.
  match type of R with prun _ _ _ _ ?p => next R (p_notify (FWait (Some 0)) no no p 0 eq_refl) end.
  match type of R with prun _ _ _ _ ?p => next R (p_accept (FWait (Some 0)) no no p 0 eq_refl eq_refl) end.
  match type of R with prun _ _ _ _ ?p => next R (p_request (FWait (Some 0)) no no p 0 0 [] [] eq_refl eq_refl) end.
  match type of R with prun _ _ _ _ ?p => next R (p_interrupt (FWait (Some 0)) no no p ltac:(discriminate) eq_refl) end.
  match type of R with prun _ _ _ _ ?p => next R (p_take (FWait (Some 0)) no no p 0 eq_refl eq_refl) end.
  match type of R with prun _ _ _ _ ?p => next R (p_stop (FWait (Some 0)) no no p 0 eq_refl) end.
  match type of R with prun _ _ _ _ ?p => next R (p_expired (FWait (Some 0)) no no p 0 eq_refl ltac:(discriminate)) end.
  exact R.
Qed.
Theorem C140_in_work_refuted :
  (~ forall f panics deadly p ta r, prun f panics deadly initial p -> harmless deadly -> panics r = false -> (forall t, ~ seen p t (ESignal SKill)) ->
       ended p -> asked p ta r -> exists tr, answered p tr r \/ cut_off p tr r) /\
  (~ forall f panics deadly p t ta r, prun f panics deadly initial p -> harmless deadly -> panics r = false -> only_interrupts p ->
       seen p t (EExit 0) -> asked p ta r -> exists tr, answered p tr r \/ cut_off p tr r).
Proof.
  split; intros H.
  - destruct (H (FWait None) no no cut_short 0 0%nat cut_short_run) as (t&[(c&E)|(c&E)]);
      try (intros r; reflexivity); try reflexivity; try (unfold seen in E; cbn in E; intuition discriminate).
    + intros t. unfold seen. cbn. intuition discriminate.
    + exists 0. right. unfold seen. cbn. tauto.
    + exists 0%nat. unfold seen. cbn. tauto.
  - destruct (H (FWait (Some 0)) no no hasty 0 0 0%nat hasty_run) as (t&[(c&E)|(c&E)]);
      try (intros r; reflexivity); try reflexivity; try (unfold seen in E; cbn in E; intuition discriminate).
    + intros t s X. events X.
    + unfold seen. cbn. tauto.
    + exists 0%nat. unfold seen. cbn. tauto.
Qed.
Print Assumptions C140_in_work_refuted.

(** ** C141: a process that cannot listen *)
Theorem C141_deaf_partial f panics deadly p t :
  prun f panics deadly initial p -> seen p t EFails ->
  (forall t', ~ seen p t' EListen) /\ (forall t' c, ~ seen p t' (EAccept c)) /\
  (forall t' r, ~ asked p t' r) /\ (forall t' r, ~ answered p t' r).
Proof.
  intros R E. pose proof (listener_ok _ _ _ _ R) as (L&A&_). apply seen_In in E.
  assert (NL : forall t', ~ In (t', EListen) (p_log p)).
  { intros t' X. destruct (p_listener p); try (destruct L as [L1 L2]; first [now apply L1; eauto|now apply L2; eauto]). apply L. eauto. }
  assert (NA : forall t' c, ~ In (t', EAccept c) (p_log p)).
  { intros t' c X. destruct (A t' c X) as (u&_&Y). now apply (NL u). }
  assert (NR : forall t' c r, ~ In (t', ERequest c r) (p_log p)).
  { intros t' c r X. destruct (proj2 (accepted_ok _ _ _ _ R) t' c r X) as (u&_&Y). now apply (NA u c). }
  split; [|split; [|split]].
  - intros t' X. apply seen_In in X. now apply (NL t').
  - intros t' c X. apply seen_In in X. now apply (NA t' c).
  - intros t' r (c&X). apply seen_In in X. now apply (NR t' c r).
  - intros t' r (c&X). apply seen_In in X. destruct (ri_reply _ _ (pi_requests _ _ _ _ (process_ok _ _ _ _ R)) _ _ _ X) as (u&Y&_). now apply (NR u c r).
Qed.
Print Assumptions C141_deaf_partial.

Definition deaf : proc := Proc 0 (MWaiting 15000000000) LFailed false [] [(0, EFails)].
Lemma deaf_run : prun (FWait None) no no initial deaf.
Proof.
  pose proof (prun_refl (FWait None) no no initial) as R.
  next R (p_setup (FWait None) no no initial eq_refl).
  match type of R with prun _ _ _ _ ?p => next R (p_listen_fails (FWait None) no no p eq_refl) end.
  match type of R with prun _ _ _ _ ?p => next R (p_flags (FWait None) no no p None eq_refl eq_refl) end.
  match type of R with prun _ _ _ _ ?p => next R (p_notify (FWait None) no no p 15000000000 eq_refl) end.
  exact R.
Qed.
(** The process stays for as long as one likes, and its status is 0 once it is interrupted. *)
Theorem C141_deaf_refuted :
  (~ exists bound, forall f panics deadly p t, prun f panics deadly initial p -> seen p t EFails -> t + bound < clock p -> ended p) /\
  (~ forall f panics deadly p t t' n, prun f panics deadly initial p -> harmless deadly -> patience f <> None -> seen p t EFails -> seen p t' (EExit n) -> n <> 0%nat).
Proof.
  split.
  - intros (b&H). destruct (H (FWait None) no no (ticks (S (Z.to_nat b)) deaf) 0) as (t&E).
    + eapply run_trans; [apply deaf_run|]. apply run_ticks. intros k _. reflexivity.
    + now left.
    + unfold clock, ticks. cbn [p_now deaf]. lia.
    + unfold seen in E. cbn in E. destruct E as [(n&[E|[]])|[E|[]]]; discriminate.
  - intros H. pose proof deaf_run as R.
    unfold deaf in R. match type of R with prun _ _ _ _ ?p => next R (p_interrupt (FWait None) no no p ltac:(discriminate) eq_refl) end.
    match type of R with prun _ _ _ _ ?p => next R (p_take (FWait None) no no p 15000000000 eq_refl eq_refl) end.
    match type of R with prun _ _ _ _ ?p => next R (p_stop (FWait None) no no p 15000000000 eq_refl) end.
    match type of R with prun _ _ _ _ ?p => next R (p_drained (FWait None) no no p 15000000000 eq_refl eq_refl) end.
    apply (H _ _ _ _ 0 0 0%nat R); try reflexivity; try (intros r; reflexivity); try discriminate; unfold seen; cbn; tauto.
Qed.
Print Assumptions C141_deaf_refuted.

Example C141_example : prun (FWait None) no no initial deaf /\ seen deaf 0 EFails /\ ~ ended deaf.
Proof.
  split; [apply deaf_run|]. split; [unfold seen; cbn; tauto|].
  intros (t&[(n&X)|X]); unfold seen in X; cbn in X; intuition discriminate.
Qed.

(** ** C142: a command line that cannot be used *)
Theorem C142_command_line_partial f panics deadly p :
  prun f panics deadly initial p -> patience f = None ->
  (* all that is seen of the process is seen at one time *)
  (forall t e t' e', seen p t e -> seen p t' e' -> t = t') /\
  (* it exits with the status of its error, or 0 if help was asked for *)
  (harmless deadly -> forall t n, seen p t (EExit n) -> n = match f with FHelp => 0%nat | _ => 2%nat end) /\
  (* it can go on to that *)
  (~ ended p -> exists q t n, prun f panics deadly p q /\ seen q t (EExit n)).
Proof.
  intros R W. pose proof (process_ok _ _ _ _ R) as I. pose proof I as [RI Q (P&G&A&C) S]. pose proof (once_ok _ _ _ _ W R) as (O&OM).
  split; [|split].
  - intros t e t' e' X Y. apply seen_In in X. apply seen_In in Y. rewrite (O t e X), (O t' e' Y). reflexivity.
  - intros H t n X. apply seen_In in X.
    destruct (p_main p) eqn:M; try contradiction; try (exfalso; destruct G as [G1 G2]; [congruence|]; now apply (G1 t n)).
    destruct P as (e&l&L&N1&N2&_&_&E). rewrite L in X. destruct X as [X|X]; [|exfalso; now apply (N1 t n)].
    injection X as <- ->. specialize (E n eq_refl H). rewrite W in E. apply E.
  - intros NE. assert (NG : p_main p <> MGone) by (intros X; apply NE; now apply (gone_iff f panics deadly)).
    assert (K : forall p, p_main p = MStarted -> exists q t n, prun f panics deadly p q /\ seen q t (EExit n)).
    { intros p1 M. destruct f as [[w|]| |] eqn:EF; try discriminate.
      - exists (gone (EExit 0) p1), (p_now p1), 0%nat. split; [apply run_one; now apply p_help|]. apply seen_In. now left.
      - exists (gone (EExit 2) p1), (p_now p1), 2%nat. split; [apply run_one; now apply p_bad|]. apply seen_In. now left. }
    destruct (p_main p) eqn:M; try contradiction; try congruence.
    + destruct (K (listening LStarting (goto MStarted p)) eq_refl) as (q&t&n&RQ&E). exists q, t, n. split; [|exact E].
      eapply run_trans; [|exact RQ]. apply run_one. now apply p_setup.
    + now apply K.
Qed.
Print Assumptions C142_command_line_partial.

Definition too_late : proc :=
  Proc 0 MGone LClosed false [] [(0, EExit 2); (0, ERequest 0 0); (0, EAccept 0); (0, EListen)].
Lemma too_late_run : prun FBad no no initial too_late.
Proof.
  pose proof (prun_refl FBad no no initial) as R.
  next R (p_setup FBad no no initial eq_refl).
  match type of R with prun _ _ _ _ ?p => next R (p_listen FBad no no p eq_refl eq_refl) end.
  match type of R with prun _ _ _ _ ?p => next R (p_accept FBad no no p 0 eq_refl eq_refl) end.
  match type of R with prun _ _ _ _ ?p => next R (p_request FBad no no p 0 0 [] [] eq_refl eq_refl) end.
  match type of R with prun _ _ _ _ ?p => next R (p_bad FBad no no p eq_refl eq_refl) end.
  exact R.
Qed.
(** The command line is read once the server is open: clients can be accepted, and dropped. *)
Theorem C142_command_line_refuted : ~ forall panics deadly p t r, prun FBad panics deadly initial p -> ~ asked p t r.
Proof.
  intros H. apply (H no no too_late 0 0%nat too_late_run). exists 0%nat. unfold seen. cbn. tauto.
Qed.
Print Assumptions C142_command_line_refuted.
Example C142_example : prun FBad no no initial too_late /\ patience FBad = None /\ seen too_late 0 (EExit 2).
Proof. split; [apply too_late_run|]. split; [reflexivity|]. unfold seen. cbn. tauto. Qed.

(** ** C143: every request is answered once, on its connection, within 15 seconds or not at all *)
Theorem C143_answers_partial f panics deadly p :
  prun f panics deadly initial p ->
  (* an answer is one to a request read from that connection at most 15 seconds before *)
  (forall t c r, seen p t (EReply c r) -> exists ta, seen p ta (ERequest c r) /\ ta <= t <= ta + seconds 15) /\
  (* a request has one outcome *)
  (forall before t c r after t' c', history p = before ++ (t, EReply c r) :: after ->
     ~ In (t', EReply c' r) (before ++ after) /\ ~ In (t', EHangUp c' r) (before ++ after)) /\
  (* a request that can be answered is, if its answer is there in time *)
  (forall ta r, asked p ta r -> ~ ended p -> panics r = false -> deadly r = false -> clock p <= ta + seconds 15 ->
     (forall t, ~ answered p t r) -> (forall t, ~ cut_off p t r) -> exists q, pstep f panics deadly p q /\ answered q (clock p) r) /\
  (* a client that has not been answered in time never is *)
  (forall ta r q t, asked p ta r -> ta + seconds 15 < clock p -> (forall t, ~ answered p t r) -> prun f panics deadly p q -> ~ answered q t r).
Proof.
  intros R. pose proof (process_ok _ _ _ _ R) as I. pose proof I as [RI Q (P&G&A&C) S].
  split; [|split; [|split]].
  - intros t c r X. apply seen_In in X. destruct (ri_reply _ _ RI _ _ _ X) as (ta&Y&T&_). exists ta. split; [now apply seen_In|exact T].
  - intros b t c r a t' c' E. pose proof (ri_outs _ _ RI) as N.
    assert (L : p_log p = rev a ++ (t, EReply c r) :: rev b).
    { unfold history in E. rewrite <- (rev_involutive (p_log p)), E, rev_app_distr. cbn. now rewrite <- app_assoc. }
    assert (OA : forall l1 l2, outs (l1 ++ l2) = outs l1 ++ outs l2).
    { induction l1 as [|[u e] l1 IH]; intros l2; [reflexivity|]. destruct e; cbn; rewrite IH; reflexivity. }
    rewrite L, OA in N. cbn [outs] in N. apply NoDup_remove_2 in N. rewrite <- OA in N.
    assert (IN : forall e, In (t', e) (b ++ a) -> In (t', e) (rev a ++ rev b)).
    { intros e X. apply in_app_or in X. apply in_or_app. destruct X as [X|X]; [right|left]; now apply -> in_rev. }
    split; intros X; apply IN in X; apply N; apply outs_In; eauto.
  - intros ta r (c&X) NE PR DR T NA NC. apply seen_In in X.
    assert (NG : p_main p <> MGone) by (intros Y; apply NE; now apply (gone_iff f panics deadly)).
    destruct (ri_all _ _ RI NG _ _ _ X) as [O|B].
    + apply outs_In in O. destruct O as (u&c'&[O|O]); exfalso; [apply (NA u)|apply (NC u)]; exists c'; now apply seen_In.
    + apply busy_In in B. destruct B as (c'&d&B). destruct (ri_busy _ _ RI _ _ _ B) as (ta'&X'&D&_).
      destruct (ri_unique _ _ RI _ _ _ _ _ X X') as [<- <-]. apply in_split in B. destruct B as (l1&l2&B).
      exists (conns (l1 ++ (if shutting (p_main p) then [] else [Conn c None]) ++ l2) (log_event (EReply c r) p)). split.
      * eapply p_reply; eauto. unfold clock, seconds in T. lia.
      * exists c. apply seen_In. now left.
  - intros ta r q t (c&X) T NA RQ (c'&Y). apply seen_In in X. apply seen_In in Y.
    pose proof (process_ok _ _ _ _ (run_trans _ _ _ _ _ _ R RQ)) as [RI' _ _ _].
    destruct (ri_reply _ _ RI' _ _ _ Y) as (ta'&Z&T'&_).
    pose proof (run_keeps _ _ _ _ _ _ _ RQ X) as X'. destruct (ri_unique _ _ RI' _ _ _ _ _ X' Z) as [<- <-].
    destruct (run_log _ _ _ _ _ _ _ RQ Y) as [Y'|Y'].
    + apply (NA t). exists c. now apply seen_In.
    + unfold clock, seconds in T. lia.
Qed.
Print Assumptions C143_answers_partial.

(** A request that takes longer - the first one for a large report - is cut off. *)
Definition in_work : proc :=
  Proc 0 (MWaiting 15000000000) LListening false [Conn 0 (Some (0%nat, 15000000000))] [(0, ERequest 0 0); (0, EAccept 0); (0, EListen)].
Lemma in_work_run : prun (FWait None) no no initial in_work.
Proof.
  pose proof (prun_refl (FWait None) no no initial) as R.
  next R (p_setup (FWait None) no no initial eq_refl).
  match type of R with prun _ _ _ _ ?p => next R (p_listen (FWait None) no no p eq_refl eq_refl) end.
  match type of R with prun _ _ _ _ ?p => next R (p_flags (FWait None) no no p None eq_refl eq_refl) end.
  match type of R with prun _ _ _ _ ?p => next R (p_notify (FWait None) no no p 15000000000 eq_refl) end.
  match type of R with prun _ _ _ _ ?p => next R (p_accept (FWait None) no no p 0 eq_refl eq_refl) end.
  match type of R with prun _ _ _ _ ?p => next R (p_request (FWait None) no no p 0 0 [] [] eq_refl eq_refl) end.
  exact R.
Qed.
Theorem C143_answers_refuted : ~ forall f panics deadly p ta r,
  prun f panics deadly initial p -> harmless deadly -> panics r = false -> (forall t s, ~ seen p t (ESignal s)) -> patience f <> None ->
  asked p ta r -> exists q t, prun f panics deadly p q /\ answered q t r.
Proof.
  intros H. assert (LT : exists late, seconds 15 < Z.of_nat late) by (exists (Z.to_nat (seconds 15 + 1)); lia).
  destruct LT as (late&LT). set (p := ticks late in_work).
  assert (R : prun (FWait None) no no in_work p) by (apply run_ticks; intros k _; reflexivity).
  assert (R0 : prun (FWait None) no no initial p) by (eapply run_trans; [apply in_work_run|exact R]).
  assert (L : p_log p = p_log in_work) by reflexivity.
  assert (AS : asked p 0 0). { exists 0%nat. apply seen_In. rewrite L. now left. }
  assert (T : 0 + seconds 15 < clock p) by exact LT.
  destruct (H (FWait None) no no p 0 0%nat R0) as (q&t&RQ&E); try reflexivity; try discriminate; try exact AS.
  - intros r. reflexivity.
  - intros t s X. apply seen_In in X. rewrite L in X. cbn in X. intuition discriminate.
  - destruct (C143_answers_partial _ _ _ _ R0) as (_&_&_&N). apply (N 0 0%nat q t AS); auto.
    + intros u (c&X). apply seen_In in X. rewrite L in X. cbn in X. intuition discriminate.
Qed.
Print Assumptions C143_answers_refuted.
Example C143_example : prun (FWait None) no no initial in_work /\ asked in_work 0 0 /\ ~ ended in_work /\ clock in_work <= 0 + seconds 15 /\
  (forall t, ~ answered in_work t 0) /\ forall t, ~ cut_off in_work t 0.
Proof.
  split; [apply in_work_run|]. split; [exists 0%nat; unfold seen; cbn; tauto|]. split; [|split; [discriminate|split]].
  - intros (t&[(n&X)|X]); unfold seen in X; cbn in X; intuition discriminate.
  - intros t (c&X). unfold seen in X. cbn in X. intuition discriminate.
  - intros t (c&X). unfold seen in X. cbn in X. intuition discriminate.
Qed.
