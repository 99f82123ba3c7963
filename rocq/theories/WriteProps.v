(** Theorems about WriteFile. *)
From Coq Require Import Strings.String Strings.Ascii Lists.List Arith Lia.
From Verif Require Import GoBase GoSpec GoFacts WriteModel WriteSpec.
Import ListNotations.
Local Open Scope string_scope.

Lemma app_s_assoc (a b c : string) : (a ++ b) ++ c = a ++ b ++ c.
Proof. induction a; cbn; congruence. Qed.
Lemma app_s_nil (a : string) : a ++ "" = a.
Proof. induction a; cbn; congruence. Qed.
Lemma app_s_length (a b : string) : String.length (a ++ b) = String.length a + String.length b.
Proof. induction a; cbn; congruence. Qed.
Lemma write_at_end w more : write_at (String.length w) more w = w ++ more.
Proof.
  unfold write_at. assert (A : forall w, first_bytes (String.length w) w = w) by (clear; induction w; cbn; congruence).
  rewrite A. f_equal.
  assert (B : forall n w, String.length w <= n -> sskip n w = "") by (clear; induction n; destruct w; cbn; intros; try lia; auto; apply IHn; lia).
  rewrite B by lia. apply app_s_nil.
Qed.
Lemma nth_mid {A} (a : list A) c b : nth_error (a ++ c :: b) (List.length a) = Some c.
Proof. induction a; cbn; auto. Qed.
Lemma nth_other {A} (a : list A) c c' b i : i <> List.length a -> nth_error (a ++ c' :: b) i = nth_error (a ++ c :: b) i.
Proof. revert i. induction a; destruct i; cbn; intros; auto; try congruence. Qed.
Lemma run_trans s s' s'' : sys_run s s' -> sys_run s' s'' -> sys_run s s''.
Proof. intros A B. revert A. induction B as [|x y z B IH H]; intros A; auto. apply sys_more with y; auto. Qed.
Lemma first_step s s' s'' : sys_step s s' -> sys_run s' s'' -> sys_run s s''.
Proof. intros A. apply run_trans. eapply sys_more; [apply sys_refl|exact A]. Qed.
Lemma holds_iff fs path bytes : holds fs path bytes <-> sget path fs = Some bytes.
Proof.
  split.
  - induction 1; cbn; [now rewrite String.eqb_refl|]. destruct (String.eqb_spec p path); [congruence|auto].
  - induction fs as [|[p b] fs IH]; cbn; [discriminate|]. destruct (String.eqb_spec p path) as [->|N].
    + intros E. injection E as ->. constructor.
    + constructor; auto.
Qed.
Lemma same_iff fs fs' path : sget path fs' = sget path fs -> same_file fs fs' path.
Proof. intros E b. rewrite !holds_iff. now rewrite E. Qed.
Lemma sget_eq {V} k (v : V) m : sget k (sset k v m) = Some v.
Proof. apply mget_mset_eq, seqP. Qed.
Lemma sget_neq {V} k k' (v : V) m : k <> k' -> sget k' (sset k v m) = sget k' m.
Proof. intros H. rewrite (mget_mset String.eqb seqP). destruct (String.eqb_spec k k'); congruence. Qed.

Lemma step_same c fs fs' c' : call_step c fs fs' c' -> cDest c' = cDest c /\ cData c' = cData c.
Proof. destruct 1; auto. Qed.
Lemma step_live c fs fs' c' : call_step c fs fs' c' -> forall e, cPoint c <> PEnd e.
Proof. destruct 1; intros e; congruence. Qed.
Lemma step_elsewhere c fs fs' c' path : call_step c fs fs' c' -> cDest c <> path -> sget path fs' = sget path fs.
Proof. destruct 1; intros N; auto using sget_neq. Qed.
(** a call stays the call it is *)
Lemma step_calls s s' i c : sys_step s s' -> nth_error (calls s) i = Some c ->
  exists c', nth_error (calls s') i = Some c' /\ cDest c' = cDest c /\ cData c' = cData c.
Proof.
  destruct 1 as [fs cs d x|fs fs' a c0 c0' b H]; cbn; intros E.
  - exists c. split; auto. rewrite nth_error_app1; auto. apply nth_error_Some. congruence.
  - destruct (Nat.eq_dec i (List.length a)) as [->|N].
    + rewrite nth_mid in *. injection E as <-. exists c0'. split; auto. now apply step_same in H.
    + rewrite (nth_other a c0 c0' b i N). eauto.
Qed.
Lemma run_calls s s' i c : sys_run s s' -> nth_error (calls s) i = Some c ->
  exists c', nth_error (calls s') i = Some c' /\ cDest c' = cDest c /\ cData c' = cData c.
Proof.
  induction 1; [eauto|]. intros E. destruct (IHsys_run E) as (c1&E1&A&B). destruct (step_calls _ _ _ _ H0 E1) as (c2&E2&A2&B2).
  exists c2. repeat split; auto; congruence.
Qed.
Lemma called_back s s' j dest data : sys_step s s' -> called s j dest data -> called s' j dest data.
Proof. intros H (p&E). destruct (step_calls _ _ _ _ H E) as ([d x q]&E'&A&B). cbn in *. subst. now exists q. Qed.
Lemma length_step s s' : sys_step s s' -> List.length (calls s) <= List.length (calls s').
Proof. destruct 1; cbn; rewrite !app_length; cbn; lia. Qed.

(** The state of the file while only one call is for it *)
Definition view (fs0 fs : files) (dest : string) (c : option call) : Prop :=
  match c with
  | None => sget dest fs = sget dest fs0
  | Some (Call d data p) =>
      match p with
      | POpen => sget dest fs = sget dest fs0
      | PWrite w => sget dest fs = Some w /\ exists rest, data = w ++ rest
      | PEnd None => sget dest fs = Some data
      | PEnd (Some OpenFailed) => sget dest fs = sget dest fs0
      | PEnd (Some WriteFailed) => exists w rest, sget dest fs = Some w /\ data = w ++ rest
      end
  end.
Definition at_work (s : system) (i : nat) (dest : string) : option call :=
  match nth_error (calls s) i with
  | Some c => if String.eqb (cDest c) dest then Some c else None
  | None => None
  end.
Lemma invariant s0 s dest : quiet s0 dest -> sys_run s0 s -> forall i, List.length (calls s0) <= i -> only_call s0 s i dest ->
  (forall j c, j < List.length (calls s0) -> nth_error (calls s) j = Some c -> cDest c = dest -> exists e, cPoint c = PEnd e) /\
  view (on_disk s0) (on_disk s) dest (at_work s i dest).
Proof.
  intros Q R i L. induction R as [s|s s' s'' R IH H]; intros ON.
  - split.
    + intros j [d x p] _ E D. cbn in *. subst. destruct (Q _ _ _ E) as (e&->). eauto.
    + unfold at_work. now rewrite (proj2 (nth_error_None (calls s) i) L).
  - destruct (IH Q L) as [OLD V]; [intros j x C; eapply ON, called_back; eauto|].
    destruct H as [fs cs d x|fs fs' a c c' b H]; cbn [on_disk calls] in *.
    + assert (K : List.length (calls s) <= List.length cs).
      { clear -R. remember (System fs cs) as t eqn:E. assert (G : List.length (calls s) <= List.length (calls t)); [|now rewrite E in G].
        clear E. induction R; auto. apply length_step in H. lia. }
      split.
      * intros j c J E. rewrite nth_error_app1 in E by lia. eauto.
      * unfold at_work in *. cbn [calls] in *. destruct (Nat.lt_trichotomy i (List.length cs)) as [Z|[->|Z]].
        -- rewrite nth_error_app1 by lia. auto.
        -- rewrite nth_error_app2, Nat.sub_diag by lia. cbn. rewrite (proj2 (nth_error_None cs _) (le_n _)) in V. destruct (String.eqb d dest); auto.
        -- rewrite (proj2 (nth_error_None (cs ++ _) i)) by (rewrite app_length; cbn; lia). now rewrite (proj2 (nth_error_None cs i)) in V by lia.
    + assert (D : cDest c = dest -> i = List.length a).
      { intros E. pose proof (step_same _ _ _ _ H) as [S1 S2]. destruct (ON (List.length a) (cData c')) as [J|J]; auto.
        - exists (cPoint c'). cbn [calls]. rewrite nth_mid. destruct c'; cbn in *. congruence.
        - exfalso. destruct (OLD _ c J (nth_mid a c b) E) as (e&X). eapply step_live; eauto. }
      split.
      * intros j c0 J E Z. destruct (Nat.eq_dec j (List.length a)) as [->|N].
        -- rewrite nth_mid in E. injection E as <-. exfalso. pose proof (step_same _ _ _ _ H) as [S1 S2]. rewrite <- D in J by congruence. lia.
        -- rewrite (nth_other a c c' b j N) in E. eauto.
      * unfold at_work in *. cbn [calls] in *. destruct (String.eqb_spec (cDest c) dest) as [E|N].
        -- pose proof (D E) as I. clear D. subst i. rewrite nth_mid in V |- *. pose proof (step_same _ _ _ _ H) as [S1 S2]. rewrite S1. rewrite E, String.eqb_refl in V |- *.
           destruct c as [d x p]. cbn in E, S2. subst d. destruct H as [fs P|fs P|fs w more rest old P M X G|fs w P|fs w P X]; cbn in P, V |- *; subst p; auto.
           ++ split; [apply sget_eq|now exists x].
           ++ cbn in X, G. destruct V as [V1 V2]. rewrite V1 in G. injection G as <-. rewrite sget_eq, write_at_end. split; auto. exists rest. now rewrite app_s_assoc.
           ++ destruct V as (V1&r&V2). eauto.
           ++ cbn in X. subst x. apply V.
        -- assert (S : sget dest fs' = sget dest fs) by (eapply step_elsewhere; eauto). pose proof (step_same _ _ _ _ H) as [S1 _].
           assert (T : match nth_error (a ++ c' :: b) i with Some c => if String.eqb (cDest c) dest then Some c else None | None => None end =
             match nth_error (a ++ c :: b) i with Some c => if String.eqb (cDest c) dest then Some c else None | None => None end).
           { destruct (Nat.eq_dec i (List.length a)) as [->|M]; [|now rewrite (nth_other a c c' b i M)]. rewrite !nth_mid, S1.
             destruct (String.eqb_spec (cDest c) dest); congruence. }
           rewrite T. unfold view in *. rewrite S. exact V.
Qed.

(** ** C160 *)

(** Whatever else is written at the same time, and wherever the process is stopped: while only one call is for a
    file, the file is as it was before, or holds the beginning of the data; *)
Theorem C160_partial : forall s0 s i dest data, quiet s0 dest -> sys_run s0 s -> List.length (calls s0) <= i ->
  only_call s0 s i dest -> called s i dest data ->
  same_file (on_disk s0) (on_disk (crash s)) dest \/ exists begin rest, holds (on_disk (crash s)) dest begin /\ data = begin ++ rest.
Proof.
  intros s0 s i dest data Q R L O (p&E). destruct (invariant s0 s dest Q R i L O) as [_ V]. unfold at_work in V.
  rewrite E in V. cbn in V. rewrite String.eqb_refl in V. cbn [crash on_disk].
  destruct p as [|w|[[]|]]; auto using same_iff.
  - destruct V as (V&rest&D). right. exists w, rest. now rewrite holds_iff.
  - destruct V as (w&rest&V&D). right. exists w, rest. now rewrite holds_iff.
  - right. exists data, "". rewrite holds_iff, app_s_nil. auto.
Qed.
Print Assumptions C160_partial.
(** once the call has returned, its error tells: without one the file holds the data, all of it and nothing else;
    if the file could not be opened it is as it was; and only after an error in writing may data be missing. *)
Theorem C160_returned_partial : forall s0 s i dest data err, quiet s0 dest -> sys_run s0 s -> List.length (calls s0) <= i ->
  only_call s0 s i dest -> returned s i dest data err ->
  match err with
  | None => forall bytes, holds (on_disk s) dest bytes <-> bytes = data
  | Some OpenFailed => same_file (on_disk s0) (on_disk s) dest
  | Some WriteFailed => exists begin rest, holds (on_disk s) dest begin /\ data = begin ++ rest
  end.
Proof.
  intros s0 s i dest data err Q R L O E. destruct (invariant s0 s dest Q R i L O) as [_ V]. unfold at_work in V.
  rewrite E in V. cbn in V. rewrite String.eqb_refl in V. destruct err as [[]|].
  - now apply same_iff.
  - destruct V as (w&rest&V&D). exists w, rest. now rewrite holds_iff.
  - intros b. rewrite holds_iff, V. split; congruence.
Qed.
Print Assumptions C160_returned_partial.
(** A file that no call is for stays as it is. *)
Theorem C160_elsewhere : forall s0 s path, quiet s0 path -> sys_run s0 s -> no_call s0 s path -> same_file (on_disk s0) (on_disk s) path.
Proof.
  intros s0 s path Q R N.
  assert (O : only_call s0 s (List.length (calls s)) path) by (intros j x C; right; eapply N; eauto).
  assert (L : List.length (calls s0) <= List.length (calls s)) by (clear -R; induction R; auto; apply length_step in H; lia).
  destruct (invariant s0 s path Q R _ L O) as [_ V]. unfold at_work in V. rewrite (proj2 (nth_error_None (calls s) _) (le_n _)) in V. now apply same_iff.
Qed.
Print Assumptions C160_elsewhere.
(** A call always goes on until it has returned, and without new calls only so many steps are possible. *)
Definition left_to_do (c : call) : nat :=
  match cPoint c with
  | POpen => String.length (cData c) + 2
  | PWrite w => String.length (cData c) - String.length w + 1
  | PEnd _ => 0
  end.
Theorem C160_ends : forall s, (forall i dest data p, nth_error (calls s) i = Some (Call dest data p) -> (forall err, p <> PEnd err) -> exists s', sys_step s s' /\ List.length (calls s') = List.length (calls s)) /\
  Acc (fun s2 s1 => sys_step s1 s2 /\ List.length (calls s2) = List.length (calls s1)) s.
Proof.
  intros s. split.
  - intros i dest data p E L. destruct s as [fs cs]. cbn [calls] in *. apply nth_error_split in E as (a&b&->&_).
    destruct p as [|w|err]; [| |now destruct (L err)].
    + eexists. split; [apply sys_call, st_open_failed; reflexivity|]. cbn. now rewrite !app_length.
    + eexists. split; [eapply sys_call, st_write_failed; reflexivity|]. cbn. now rewrite !app_length.
  - assert (G : forall n s, list_sum (map left_to_do (calls s)) < n -> Acc (fun s2 s1 => sys_step s1 s2 /\ List.length (calls s2) = List.length (calls s1)) s); [|eapply G, le_n].
    clear. induction n as [|n IH]; intros s L; [lia|]. constructor. intros s2 [H E]. apply IH.
    destruct H as [fs cs d x|fs fs' a c c' b H]; cbn [calls] in *; [rewrite app_length in E; cbn in E; lia|].
    rewrite map_app, list_sum_app in *. cbn [map list_sum fold_right] in *.
    assert (K : left_to_do c' < left_to_do c); [|unfold list_sum in *; cbn [fold_right] in *; lia].
    destruct c as [d x p]. destruct H as [fs P|fs P|fs w more rest old P M X _|fs w P|fs w P X]; cbn in *; subst; cbn; try lia.
    rewrite !app_s_length. destruct more; [congruence|]. cbn. lia.
Qed.
Print Assumptions C160_ends.

(** Refuted: after a crash the file may hold neither what it held nor the data; *)
Theorem C160_refuted : exists s old data s', holds (on_disk s) "f" old /\ calls s = [] /\ sys_run s s' /\
  called s' 0 "f" data /\ old <> "" /\ data <> "" /\ forall bytes, holds (on_disk (crash s')) "f" bytes <-> bytes = "".
Proof.
  exists (System [("f", "old")] []), "old", "new", (System [("f", "")] [Call "f" "new" (PWrite "")]).
  split; [constructor|]. split; [reflexivity|]. split.
  - eapply sys_more; [eapply sys_more; [apply sys_refl|apply (sys_arrive _ [] "f" "new")]|].
    apply (sys_call _ _ [] (Call "f" "new" POpen) _ []). exact (st_open (Call "f" "new" POpen) [("f", "old")] eq_refl).
  - split; [now exists (PWrite "")|]. do 2 (split; [discriminate|]). intros b. rewrite holds_iff. cbn. split; congruence.
Qed.
Print Assumptions C160_refuted.
(** and after two calls at the same time, both without an error, it may hold the data of neither. *)
Theorem C160_overlap_refuted : exists s', sys_run (System [] []) s' /\ returned s' 0 "f" "longer" None /\ returned s' 1 "f" "sh" None /\
  forall bytes, holds (on_disk s') "f" bytes <-> bytes = "shnger".
Proof.
  exists (System [("f", "shnger")] [Call "f" "longer" (PEnd None); Call "f" "sh" (PEnd None)]). split; [|split; [reflexivity|split; [reflexivity|]]].
  - eapply first_step; [apply (sys_arrive [] [] "f" "longer")|].
    eapply first_step; [apply (sys_arrive [] _ "f" "sh")|].
    eapply first_step; [apply (sys_call _ _ [] _ _ _ (st_open (Call "f" "longer" POpen) [] eq_refl))|].
    eapply first_step; [apply (sys_call _ _ [_] _ _ [] (st_open (Call "f" "sh" POpen) _ eq_refl))|].
    eapply first_step; [apply (sys_call _ _ [] _ _ _ (st_write (Call "f" "longer" (PWrite "")) [("f", "")] "" "longer" "" "" eq_refl ltac:(discriminate) eq_refl eq_refl))|].
    eapply first_step; [apply (sys_call _ _ [_] _ _ [] (st_write (Call "f" "sh" (PWrite "")) [("f", "longer")] "" "sh" "" "longer" eq_refl ltac:(discriminate) eq_refl eq_refl))|].
    eapply first_step; [apply (sys_call _ _ [] _ _ _ (st_written (Call "f" "longer" (PWrite "longer")) _ "longer" eq_refl eq_refl))|].
    eapply first_step; [apply (sys_call _ _ [_] _ _ [] (st_written (Call "f" "sh" (PWrite "sh")) _ "sh" eq_refl eq_refl))|]. apply sys_refl.
  - intros b. rewrite holds_iff. cbn. split; congruence.
Qed.
Print Assumptions C160_overlap_refuted.
(** A file is replaced while another call, in the middle of its own file, goes on. *)
Example C160_example : exists s0 s, quiet s0 "f" /\ sys_run s0 s /\ List.length (calls s0) = 1 /\ only_call s0 s 1 "f" /\
  returned s 1 "f" "new" None /\ holds (on_disk s0) "f" "older" /\ no_call s0 s "g" /\ called s 0 "g" "x".
Proof.
  exists (System [("f", "older")] [Call "g" "x" POpen]), (System [("f", "new")] [Call "g" "x" POpen; Call "f" "new" (PEnd None)]).
  split; [intros [|[|]] d p E; discriminate E|]. split.
  - eapply first_step; [apply (sys_arrive _ _ "f" "new")|].
    eapply first_step; [apply (sys_call _ _ [_] _ _ [] (st_open (Call "f" "new" POpen) _ eq_refl))|].
    eapply first_step; [apply (sys_call _ _ [_] _ _ [] (st_write (Call "f" "new" (PWrite "")) [("f", "")] "" "new" "" "" eq_refl ltac:(discriminate) eq_refl eq_refl))|].
    eapply first_step; [apply (sys_call _ _ [_] _ _ [] (st_written (Call "f" "new" (PWrite "new")) _ "new" eq_refl eq_refl))|]. apply sys_refl.
  - split; [reflexivity|]. split; [intros [|[|[|]]] d (p&E); try discriminate E; auto|]. split; [reflexivity|]. split; [constructor|].
    split; [intros [|[|[|]]] d (p&E); try discriminate E; auto|]. now exists POpen.
Qed.
