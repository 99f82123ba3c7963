(** * RenderProofs *)
From Verif Require Import GoBase GoSpec GoFacts LabelModel RenderModel RenderSpec.
Local Open Scope string_scope.

(** ** Memory *)
Lemma set_nth_length {A} (l : list A) n x : List.length (set_nth l n x) = List.length l.
Proof.
  revert n; induction l as [|y l IH]; intros [|n]; simpl; auto.
Qed.
Lemma nth_set_nth {A} (l : list A) n x k d :
  nth k (set_nth l n x) d = if Nat.eqb k n && Nat.ltb n (List.length l) then x else nth k l d.
Proof.
  revert n k; induction l as [|y l IH]; intros [|n] [|k]; simpl; auto.
  - now rewrite andb_false_r.
  - rewrite IH. reflexivity.
Qed.
Lemma array_store m a k x b : array (store m a k x) b =
  if Nat.eqb b a && Nat.ltb a (List.length (mArrays m)) then set_nth (array m a) k x else array m b.
Proof.
  unfold array, store. cbn [mArrays]. apply nth_set_nth.
Qed.
Lemma array_length_store m a k x b : List.length (array (store m a k x) b) = List.length (array m b).
Proof.
  rewrite array_store. destruct (Nat.eqb_spec b a) as [->|]; cbn [andb]; auto.
  destruct (Nat.ltb _ _); auto. apply set_nth_length.
Qed.
Lemma arrays_store m a k x : List.length (mArrays (store m a k x)) = List.length (mArrays m).
Proof.
  apply set_nth_length.
Qed.
Lemma slot_store m a k x b j : slot (store m a k x) b j =
  if Nat.eqb b a && Nat.eqb j k && Nat.ltb k (List.length (array m a)) then x else slot m b j.
Proof.
  unfold slot. rewrite array_store. destruct (Nat.eqb_spec b a) as [->|]; cbn [andb]; auto.
  destruct (Nat.ltb_spec a (List.length (mArrays m))) as [L|L].
  - now rewrite nth_set_nth.
  - unfold array. rewrite (nth_overflow _ _ L). simpl. now rewrite andb_false_r.
Qed.
Lemma slot_inside m a k : slot m a k <> None -> k < List.length (array m a) /\ a < List.length (mArrays m).
Proof.
  unfold slot. intro H. assert (k < List.length (array m a)).
  { destruct (Nat.lt_ge_cases k (List.length (array m a))) as [|G]; auto. rewrite nth_overflow in H by auto. congruence. }
  split; auto. destruct (Nat.lt_ge_cases a (List.length (mArrays m))) as [|G]; auto.
  unfold array in H0. rewrite nth_overflow in H0 by auto. simpl in H0. lia.
Qed.
Lemma var_store m a k x v : var (store m a k x) v = var m v.
Proof.
  reflexivity.
Qed.

(** a fresh array *)
Definition alloc (m : memory) (c : nat) : memory := Memory (mArrays m ++ [repeat None c])%list (mVars m).
Lemma array_alloc m c b : array (alloc m c) b =
  if Nat.eqb b (List.length (mArrays m)) then repeat None c else array m b.
Proof.
  unfold array, alloc. cbn [mArrays]. destruct (Nat.eqb_spec b (List.length (mArrays m))) as [->|N].
  - rewrite app_nth2, Nat.sub_diag by lia. reflexivity.
  - destruct (Nat.lt_ge_cases b (List.length (mArrays m))).
    + now rewrite app_nth1.
    + rewrite !nth_overflow; auto. rewrite app_length. simpl. lia.
Qed.
Lemma slot_alloc m c b k : slot (alloc m c) b k = slot m b k.
Proof.
  unfold slot. rewrite array_alloc. destruct (Nat.eqb_spec b (List.length (mArrays m))) as [->|N]; auto.
  unfold array. rewrite (nth_overflow (mArrays m)) by lia. rewrite nth_repeat. now destruct k.
Qed.

(** ** Every run: only contributed strings are seen *)
Section Sound.
  (** [U v x]: some goroutine has [x] to append to variable [v] *)
  Variable U : nat -> string -> Prop.
  Variable nvars : nat.

  (** array [a] belongs to variable [own a] *)
  Definition filled (m : memory) (a n : nat) : Prop := forall k, k < n -> slot m a k <> None.
  Definition tinv (own : nat -> nat) (m : memory) (t : thread) : Prop :=
    (forall v ys, In (v, ys) (thTodo t) -> v < nvars /\ forall x, In x ys -> U v x) /\
    match thTodo t with
    | [] => True
    | (v, ys) :: _ =>
        match thPC t with
        | AtStart => True
        | Loaded h => own (hdArray h) = v /\ hdArray h < List.length (mArrays m) /\ filled m (hdArray h) (hdLen h)
        | Copying h new k =>
            own (hdArray h) = v /\ hdArray h < List.length (mArrays m) /\ filled m (hdArray h) (hdLen h) /\
            own new = v /\ filled m new k /\
            k <= hdLen h /\ hdLen h + List.length ys <= List.length (array m new) /\ new < List.length (mArrays m)
        | Writing a off k =>
            own a = v /\ filled m a (off + k) /\ k <= List.length ys /\
            off + List.length ys <= List.length (array m a) /\ a < List.length (mArrays m)
        end
    end.
  Definition minv (own : nat -> nat) (m : memory) : Prop :=
    List.length (mVars m) = nvars /\
    (forall a k x, slot m a k = Some x -> U (own a) x) /\
    (forall v, v < nvars -> own (hdArray (var m v)) = v /\ hdArray (var m v) < List.length (mArrays m) /\
       filled m (hdArray (var m v)) (hdLen (var m v))).
  Definition cinv (c : rconf) : Prop :=
    exists own, minv own (rcMem c) /\ forall t, In t (rcThreads c) -> tinv own (rcMem c) t.

  (** what may happen to the memory while another goroutine runs *)
  Definition extends (own own' : nat -> nat) (m m' : memory) : Prop :=
    List.length (mArrays m) <= List.length (mArrays m') /\
    (forall a, a < List.length (mArrays m) -> own' a = own a /\ List.length (array m' a) = List.length (array m a)) /\
    (forall a k, slot m a k <> None -> slot m' a k <> None).
  Lemma extends_refl own m m' : mArrays m' = mArrays m -> extends own own m m'.
  Proof.
    intro E. unfold extends, slot, array. rewrite E. repeat split; auto.
  Qed.
  Lemma filled_extends own own' m m' a n : extends own own' m m' -> filled m a n -> filled m' a n.
  Proof.
    intros (_&_&E) F k L. apply E. auto.
  Qed.
  Lemma tinv_extends own own' m m' t : extends own own' m m' -> tinv own m t -> tinv own' m' t.
  Proof.
    intros E [A B]. split; auto. destruct (thTodo t) as [|[v ys] r]; auto.
    destruct (thPC t) as [|h|h new k|a off k]; auto; pose proof E as (L&S&_).
    - destruct B as (B1&B2&B3). destruct (S _ B2) as [-> _]. split; [auto|split; [lia|]].
      now apply (filled_extends own own' m).
    - destruct B as (B1&B2&B3&B4&B5&B6&B7&B8). destruct (S _ B2) as [-> _]. destruct (S _ B8) as [-> ->].
      split; [auto|]. split; [lia|]. split; [eauto using filled_extends|]. split; [auto|].
      split; [eauto using filled_extends|]. split; [auto|]. split; [auto|lia].
    - destruct B as (B1&B2&B3&B4&B5). destruct (S _ B5) as [-> ->].
      split; [auto|]. split; [eauto using filled_extends|]. split; [auto|]. split; [auto|lia].
  Qed.
  Lemma store_extends own m a k x : x <> None -> extends own own m (store m a k x).
  Proof.
    intro N. unfold extends. rewrite arrays_store. split; [auto|]. split.
    - intros b _. split; auto. apply array_length_store.
    - intros b j H. rewrite slot_store. destruct (_ && _); auto.
  Qed.
  Lemma store_minv own m a k x : minv own m -> U (own a) x -> minv own (store m a k (Some x)).
  Proof.
    intros (M1&M2&M3) H. split; [auto|]. split.
    - intros b j y. rewrite slot_store. destruct (Nat.eqb_spec b a) as [->|]; cbn [andb]; eauto.
      destruct (_ && _); eauto. congruence.
    - intros v L. destruct (M3 v L) as (A&B&C). change (var (store m a k (Some x)) v) with (var m v).
      rewrite arrays_store. split; [auto|split; [auto|]]. eapply filled_extends; [apply (store_extends own)|exact C].
      discriminate.
  Qed.
  Lemma tstep_inv own c m t m' t' : minv own m -> tinv own m t -> tstep c m t = Some (m', t') ->
    exists own', extends own own' m m' /\ minv own' m' /\ tinv own' m' t'.
  Proof.
    intros M [A B] E. unfold tstep in E. destruct (thTodo t) as [|[v ys] rest] eqn:T; [discriminate|].
    destruct (A v ys (or_introl eq_refl)) as [Lv Uv].
    destruct (thPC t) as [|h|h new k|a off k] eqn:P.
    - injection E as <- <-. exists own. split; [now apply extends_refl|]. split; auto. split; cbn [thTodo thPC]; auto.
      destruct M as (_&_&M). destruct (M v Lv) as (X&Y&Z). auto.
    - destruct (Nat.leb_spec (hdLen h + List.length ys) (List.length (array m (hdArray h)))) as [L|L].
      + injection E as <- <-. exists own. split; [now apply extends_refl|]. split; auto. split; cbn [thTodo thPC]; auto.
        destruct B as (X&Y&Z). rewrite Nat.add_0_r. repeat split; auto; lia.
      + destruct (Nat.leb_spec (hdLen h + List.length ys) c) as [L'|]; [|discriminate]. injection E as <- <-.
        change (Memory (mArrays m ++ [repeat None c])%list (mVars m)) with (alloc m c).
        set (n := List.length (mArrays m)) in *. set (own' := fun a => if Nat.eqb a n then v else own a).
        assert (OW : forall b, b < n -> own' b = own b).
        { intros b H. unfold own'. destruct (Nat.eqb_spec b n); auto; lia. }
        assert (LA : List.length (mArrays (alloc m c)) = S n) by (unfold alloc; simpl; rewrite app_length; simpl; lia).
        assert (EX : extends own own' m (alloc m c)).
        { split; [rewrite LA; unfold n; lia|]. split.
          - intros b H. split; auto. rewrite array_alloc. fold n. destruct (Nat.eqb_spec b n); auto; fold n in H; lia.
          - intros b j H. now rewrite slot_alloc. }
        exists own'. split; [exact EX|]. destruct M as (M1&M2&M3). split.
        * split; [auto|]. split.
          -- intros b j x H. rewrite slot_alloc in H. assert (b < n) by (apply (slot_inside m b j); congruence).
             rewrite OW by auto. eauto.
          -- intros w Lw. change (var (alloc m c) w) with (var m w). destruct (M3 w Lw) as (X&Y&Z). fold n in Y.
             rewrite OW by auto. rewrite LA. repeat split; [auto|lia|]. eapply filled_extends; eauto.
        * split; cbn [thTodo thPC]; auto. destruct B as (X&Y&Z). fold n in Y. rewrite OW by auto. rewrite LA.
          split; [auto|]. split; [lia|]. split; [eapply filled_extends; eauto|].
          split; [unfold own'; now rewrite Nat.eqb_refl|]. split; [intros j H; lia|]. split; [lia|].
          rewrite array_alloc. fold n. rewrite Nat.eqb_refl, repeat_length. split; [auto|lia].
    - destruct B as (B1&B2&B3&B4&B5&B6&B7&B8). destruct (Nat.ltb_spec k (hdLen h)) as [L|L]; injection E as <- <-.
      + destruct (slot m (hdArray h) k) as [x|] eqn:S; [|exfalso; now apply (B3 k L)].
        assert (EX : extends own own m (store m new k (Some x))) by (apply store_extends; discriminate).
        exists own. split; [exact EX|]. split.
        * apply store_minv; auto. destruct M as (_&M&_). rewrite B4, <- B1. eauto.
        * split; cbn [thTodo thPC]; auto. rewrite arrays_store, array_length_store.
          split; [auto|]. split; [auto|]. split; [eapply filled_extends; eauto|]. split; [auto|].
          split; [|repeat split; auto; lia].
          intros j H. rewrite slot_store. rewrite Nat.eqb_refl. cbn [andb].
          destruct (Nat.eqb_spec j k) as [->|]; cbn [andb].
          -- destruct (Nat.ltb_spec k (List.length (array m new))); [discriminate|lia].
          -- apply B5. lia.
      + exists own. split; [now apply extends_refl|]. split; auto. split; cbn [thTodo thPC]; auto.
        rewrite Nat.add_0_r. assert (k = hdLen h) as <- by lia. repeat split; auto; lia.
    - destruct B as (B1&B2&B3&B4&B5). destruct (nth_error ys k) as [y|] eqn:N; injection E as <- <-.
      + assert (k < List.length ys) by (apply nth_error_Some; congruence).
        assert (EX : extends own own m (store m a (off + k) (Some y))) by (apply store_extends; discriminate).
        exists own. split; [exact EX|]. split.
        * apply store_minv; auto. rewrite B1. apply Uv. eapply nth_error_In; eauto.
        * split; cbn [thTodo thPC]; auto. rewrite arrays_store, array_length_store.
          split; [auto|]. split; [|repeat split; auto; lia].
          intros j H'. rewrite slot_store. rewrite Nat.eqb_refl. cbn [andb].
          destruct (Nat.eqb_spec j (off + k)) as [->|]; cbn [andb].
          -- destruct (Nat.ltb_spec (off + k) (List.length (array m a))); [discriminate|lia].
          -- apply B2. lia.
      + apply nth_error_None in N. assert (k = List.length ys) as -> by lia.
        exists own. split; [now apply extends_refl|]. split.
        * destruct M as (M1&M2&M3). split; [cbn [mVars]; now rewrite set_nth_length|]. split; [exact M2|].
          intros w Lw. unfold var. cbn [mVars]. rewrite nth_set_nth, M1.
          destruct (Nat.eqb_spec w v) as [->|]; cbn [andb]; [|apply M3; auto].
          destruct (Nat.ltb_spec v nvars); [|lia]. cbn [hdArray hdLen]. repeat split; auto.
        * split; cbn [thTodo thPC]; [intros w zs H; apply A; right; auto|destruct rest as [|[w zs] r]; auto].
  Qed.
  Lemma cinv_step c c' : cinv c -> rstep c c' -> cinv c'.
  Proof.
    intros (own&M&T) H. destruct H as [cap m m' l1 t t' l2 E]. cbn [rcMem rcThreads] in *.
    destruct (tstep_inv own cap m t m' t') as (own'&X&M'&T'); auto; [apply T, in_or_app; right; now left|].
    exists own'. split; auto. cbn [rcMem rcThreads]. intros u Hu. apply in_app_or in Hu as [Hu|[<-|Hu]]; auto;
      apply (tinv_extends own own' m m'); auto; apply T, in_or_app; simpl; auto.
  Qed.
  Lemma cinv_steps c c' : rsteps c c' -> cinv c -> cinv c'.
  Proof.
    induction 1 as [|c c' c'' R IH S]; auto. intro I. exact (cinv_step _ _ (IH I) S).
  Qed.
  (** what a reader sees *)
  Lemma nth_firstn {A} n (l : list A) k d : k < n -> nth k (firstn n l) d = nth k l d.
  Proof.
    revert l k; induction n as [|n IH]; intros l k H; [lia|]. destruct l as [|x l]; [now destruct k|].
    destruct k as [|k]; simpl; auto. apply IH. lia.
  Qed.
  Lemma cinv_contents c v x : cinv c -> v < nvars -> In x (contents (rcMem c) v) -> exists s, x = Some s /\ U v s.
  Proof.
    intros (own&(M1&M2&M3)&_) L H. destruct (M3 v L) as (A&B&C). unfold contents in H.
    apply (In_nth _ _ None) in H as (k&K&E).
    assert (K2 : k < hdLen (var (rcMem c) v)) by (rewrite firstn_length in K; lia).
    rewrite nth_firstn in E by auto. fold (slot (rcMem c) (hdArray (var (rcMem c) v)) k) in E.
    specialize (C k K2). destruct x as [s|]; [|congruence]. exists s. split; auto. rewrite <- A. eauto.
  Qed.
End Sound.

(** ** Runs without overlap *)
Section Serial.
  Variable nvars : nat.
  Variable total : nat -> list string.

  Definition todo_for (v : nat) (t : thread) : list string :=
    flat_map (fun p => if Nat.eqb (fst p) v then snd p else []) (thTodo t).
  (** variable [v] holds the list [l] *)
  Definition reads (m : memory) (v : nat) (l : list string) : Prop :=
    hdLen (var m v) = List.length l /\ hdArray (var m v) < List.length (mArrays m) /\
    forall j, j < List.length l -> slot m (hdArray (var m v)) j = nth_error l j.
  Definition unused (m : memory) (a : nat) : Prop := forall w, w < nvars -> hdArray (var m w) <> a.
  Definition sinv_thread (m : memory) (ls : nat -> list string) (t : thread) : Prop :=
    (forall v ys, In (v, ys) (thTodo t) -> v < nvars) /\
    match thTodo t with
    | [] => thPC t = AtStart
    | (v, ys) :: _ =>
        match thPC t with
        | AtStart => True
        | Loaded h => h = var m v
        | Copying h new k =>
            h = var m v /\ unused m new /\ k <= hdLen h /\
            hdLen h + List.length ys <= List.length (array m new) /\ new < List.length (mArrays m) /\
            forall j, j < k -> slot m new j = nth_error (ls v) j
        | Writing a off k =>
            off = List.length (ls v) /\ (a = hdArray (var m v) \/ unused m a) /\ k <= List.length ys /\
            off + List.length ys <= List.length (array m a) /\ a < List.length (mArrays m) /\
            (forall j, j < off -> slot m a j = nth_error (ls v) j) /\
            (forall j, j < k -> slot m a (off + j) = nth_error ys j)
        end
    end.
  Definition sinv_mem (m : memory) (ls : nat -> list string) : Prop :=
    List.length (mVars m) = nvars /\
    (forall v, v < nvars -> reads m v (ls v)) /\
    (forall v w, v < nvars -> w < nvars -> hdArray (var m v) = hdArray (var m w) -> v = w).
  Definition sinv (c : rconf) : Prop :=
    exists ls, sinv_mem (rcMem c) ls /\ (forall t, In t (rcThreads c) -> sinv_thread (rcMem c) ls t) /\
      forall v, v < nvars -> Permutation (ls v ++ flat_map (todo_for v) (rcThreads c)) (total v).

  Lemma at_start_inv m m' ls ls' t : sinv_thread m ls t -> thPC t = AtStart -> sinv_thread m' ls' t.
  Proof.
    intros [A B] P. split; auto. rewrite P in *. now destruct (thTodo t) as [|[v ys] r].
  Qed.
  (** writing beyond what the variables show changes nothing they show *)
  Lemma store_reads m ls a k x : sinv_mem m ls ->
    (forall w, w < nvars -> hdArray (var m w) = a -> List.length (ls w) <= k) -> sinv_mem (store m a k x) ls.
  Proof.
    intros (M1&M2&M3) H. split; [auto|]. split; [|exact M3]. intros w L. destruct (M2 w L) as (R1&R2&R3).
    split; [auto|]. rewrite arrays_store. change (var (store m a k x) w) with (var m w). split; [auto|].
    intros j J. rewrite slot_store. destruct (Nat.eqb_spec (hdArray (var m w)) a) as [E|]; cbn [andb]; auto.
    specialize (H w L E). destruct (Nat.eqb_spec j k) as [->|]; cbn [andb]; auto. lia.
  Qed.
  Lemma sinv_tstep c m ls t m' t' : sinv_mem m ls -> sinv_thread m ls t -> tstep c m t = Some (m', t') ->
    exists ls', sinv_mem m' ls' /\ sinv_thread m' ls' t' /\
      forall v, v < nvars -> Permutation (ls' v ++ todo_for v t') (ls v ++ todo_for v t).
  Proof.
    intros M [A B] E. unfold tstep in E. destruct (thTodo t) as [|[v ys] rest] eqn:T; [discriminate|].
    assert (Lv : v < nvars) by (apply (A v ys); now left).
    assert (TODO : forall p, todo_for v (Thread p ((v, ys) :: rest)) = todo_for v t) by (intro; unfold todo_for; now rewrite T).
    assert (SAME : forall p w, w < nvars -> Permutation (ls w ++ todo_for w (Thread p ((v, ys) :: rest))) (ls w ++ todo_for w t)).
    { intros p w _. unfold todo_for. rewrite T. reflexivity. }
    pose proof M as (M1&M2&M3). destruct (M2 v Lv) as (R1&R2&R3).
    destruct (thPC t) as [|h|h new k|a off k] eqn:P.
    - injection E as <- <-. exists ls. split; auto. split; auto. split; cbn [thTodo thPC]; auto.
    - subst h. destruct (Nat.leb_spec (hdLen (var m v) + List.length ys) (List.length (array m (hdArray (var m v))))) as [L|L].
      + injection E as <- <-. exists ls. split; auto. split; auto. split; cbn [thTodo thPC]; auto.
        rewrite R1 in *. repeat split; auto; try (intros; lia).
      + destruct (Nat.leb_spec (hdLen (var m v) + List.length ys) c) as [L'|]; [|discriminate]. injection E as <- <-.
        change (Memory (mArrays m ++ [repeat None c])%list (mVars m)) with (alloc m c).
        assert (LA : List.length (mArrays (alloc m c)) = S (List.length (mArrays m))) by (unfold alloc; simpl; rewrite app_length; simpl; lia).
        exists ls. split.
        * split; [auto|]. split; [|exact M3]. intros w Lw. destruct (M2 w Lw) as (X1&X2&X3). split; [auto|].
          rewrite LA. change (var (alloc m c) w) with (var m w). split; [lia|]. intros j J. rewrite slot_alloc. auto.
        * split; auto. split; cbn [thTodo thPC]; auto. rewrite LA. change (var (alloc m c) v) with (var m v).
          split; [auto|]. split.
          { intros w Lw. change (var (alloc m c) w) with (var m w). destruct (M2 w Lw) as (X1&X2&X3). lia. }
          split; [lia|]. rewrite array_alloc, Nat.eqb_refl, repeat_length. repeat split; auto; try (intros; lia).
    - destruct B as (->&B2&B3&B4&B5&B6). destruct (Nat.ltb_spec k (hdLen (var m v))) as [L|L]; injection E as <- <-.
      + exists ls. split.
        * apply store_reads; auto. intros w Lw H. exfalso. now apply (B2 w).
        * split; auto. split; cbn [thTodo thPC]; auto. rewrite arrays_store, array_length_store.
          split; [auto|]. split; [exact B2|]. split; [lia|]. split; [auto|]. split; [auto|].
          intros j J. rewrite slot_store, Nat.eqb_refl. cbn [andb]. destruct (Nat.eqb_spec j k) as [->|]; cbn [andb].
          -- destruct (Nat.ltb_spec k (List.length (array m new))); [|lia]. apply R3. lia.
          -- apply B6. lia.
      + exists ls. split; auto. split; auto. split; cbn [thTodo thPC]; auto.
        assert (k = hdLen (var m v)) as -> by lia. rewrite R1 in *. repeat split; auto; try (intros; lia).
    - destruct B as (->&B2&B3&B4&B5&B6&B7). destruct (nth_error ys k) as [y|] eqn:N; injection E as <- <-.
      + assert (k < List.length ys) by (apply nth_error_Some; congruence).
        exists ls. split.
        * apply store_reads; auto. intros w Lw H'. destruct B2 as [->|B2]; [|exfalso; now apply (B2 w)].
          apply M3 in H' as ->; auto. lia.
        * split; auto. split; cbn [thTodo thPC]; auto. rewrite arrays_store, array_length_store.
          change (var (store m a (List.length (ls v) + k) (Some y)) v) with (var m v).
          split; [auto|]. split; [exact B2|]. split; [lia|]. split; [auto|]. split; [auto|]. split.
          -- intros j J. rewrite slot_store, Nat.eqb_refl. cbn [andb].
             destruct (Nat.eqb_spec j (List.length (ls v) + k)) as [->|]; cbn [andb]; [lia|auto].
          -- intros j J. rewrite slot_store, Nat.eqb_refl. cbn [andb].
             destruct (Nat.eqb_spec (List.length (ls v) + j) (List.length (ls v) + k)) as [Q|Q]; cbn [andb].
             ++ assert (j = k) as -> by lia. rewrite N.
                destruct (Nat.ltb_spec (List.length (ls v) + k) (List.length (array m a))); [auto|lia].
             ++ apply B7. lia.
      + apply nth_error_None in N. assert (k = List.length ys) as -> by lia.
        set (ls' := fun w => if Nat.eqb w v then (ls v ++ ys)%list else ls w).
        assert (V : forall w, var (Memory (mArrays m) (set_nth (mVars m) v (Header a (List.length (ls v) + List.length ys)))) w
                    = if Nat.eqb w v then Header a (List.length (ls v) + List.length ys) else var m w).
        { intro w. unfold var. cbn [mVars]. rewrite nth_set_nth, M1. destruct (Nat.eqb_spec w v); auto. cbn [andb].
          destruct (Nat.ltb_spec v nvars); [auto|lia]. }
        exists ls'. split; [|split].
        * split; [cbn [mVars]; now rewrite set_nth_length|]. split.
          -- intros w Lw. unfold reads, ls'. rewrite V. destruct (Nat.eqb_spec w v) as [->|]; [|apply M2; auto].
             cbn [hdArray hdLen]. rewrite app_length. split; [auto|]. split; [auto|]. intros j J.
             change (slot _ a j) with (slot m a j). destruct (Nat.lt_ge_cases j (List.length (ls v))).
             ++ rewrite nth_error_app1; auto.
             ++ rewrite nth_error_app2 by auto. rewrite <- B7 by lia. f_equal. lia.
          -- intros w w' Lw Lw'. rewrite !V. destruct (Nat.eqb_spec w v) as [->|N1], (Nat.eqb_spec w' v) as [->|N2];
               cbn [hdArray]; auto.
             ++ intro Q. destruct B2 as [->|B2]; [apply M3; auto|exfalso; symmetry in Q; now apply (B2 w')].
             ++ intro Q. destruct B2 as [->|B2]; [apply M3; auto|exfalso; now apply (B2 w)].
        * split; cbn [thTodo thPC]; [intros w zs H; apply (A w zs); now right|now destruct rest as [|[w zs] r]].
        * intros w Lw. unfold ls', todo_for. rewrite T. cbn [thTodo flat_map fst snd]. rewrite (Nat.eqb_sym v w).
          destruct (Nat.eqb_spec w v) as [->|]; [now rewrite app_assoc|reflexivity].
  Qed.
  Lemma sinv_step c c' : sinv c -> one_at_a_time c -> rstep c c' -> one_at_a_time c' -> sinv c'.
  Proof.
    intros (ls&M&T&Q) O1 H O2. destruct H as [cap m m' l1 t t' l2 E]. cbn [rcMem rcThreads] in *.
    destruct (sinv_tstep cap m ls t m' t') as (ls'&M'&T'&Q'); auto; [apply T, in_or_app; right; now left|].
    (* no other goroutine is in an append *)
    assert (REST : forall u, In u (l1 ++ l2)%list -> thPC u = AtStart).
    { intros u Hu. destruct (thPC u) eqn:PU; auto; exfalso.
      all: assert (APU : appending u) by (unfold appending; congruence).
      all: assert (X : exists i, nth_error (l1 ++ t :: l2) i = Some u /\ nth_error (l1 ++ t' :: l2) i = Some u /\ i <> List.length l1).
      1,3,5: apply in_app_or in Hu as [Hu|Hu]; apply In_nth_error in Hu as [i Hi];
        [exists i|exists (List.length l1 + S i)].
      1,3,5: assert (i < List.length l1) by (apply nth_error_Some; congruence); rewrite !nth_error_app1 by auto;
          repeat split; auto; lia.
      1,2,3: rewrite !nth_error_app2 by lia; replace (List.length l1 + S i - List.length l1) with (S i) by lia;
          repeat split; auto; lia.
      all: destruct X as (i&I1&I2&NE).
      all: assert (HT : nth_error (l1 ++ t :: l2) (List.length l1) = Some t)
         by (rewrite nth_error_app2, Nat.sub_diag by lia; reflexivity).
      all: assert (HT' : nth_error (l1 ++ t' :: l2) (List.length l1) = Some t')
         by (rewrite nth_error_app2, Nat.sub_diag by lia; reflexivity).
      all: destruct (thPC t) eqn:PT;
        [|apply NE, (O1 i (List.length l1) u t); auto; unfold appending; rewrite PT; discriminate..].
      all: apply NE, (O2 i (List.length l1) u t'); auto; unfold appending; unfold tstep in E; rewrite PT in E;
        destruct (thTodo t) as [|[? ?] ?]; [discriminate|injection E as <- <-; discriminate]. }
    exists ls'. cbn [rcMem rcThreads]. split; auto. split.
    - intros u Hu. apply in_app_or in Hu as [Hu|[<-|Hu]]; auto; apply (at_start_inv m m' ls ls');
        try (apply T, in_or_app; simpl; now auto); apply REST, in_or_app; auto.
    - intros v Lv. rewrite <- (Q v Lv). rewrite !flat_map_app. cbn [flat_map].
      rewrite (Permutation_app_swap_app (flat_map (todo_for v) l1) (todo_for v t')).
      rewrite (Permutation_app_swap_app (flat_map (todo_for v) l1) (todo_for v t)).
      rewrite !app_assoc. apply Permutation_app_tail, Permutation_app_tail. auto.
  Qed.
  Lemma sinv_run c c' : serial_run c c' -> one_at_a_time c -> sinv c -> sinv c' /\ one_at_a_time c'.
  Proof.
    induction 1 as [|c c' c'' R IH S O]; auto. intros O1 I. destruct (IH O1 I) as [I' O']. split; auto.
    now apply (sinv_step c').
  Qed.
  Lemma sinv_contents c v : sinv c -> rdone c -> v < nvars ->
    exists l, contents (rcMem c) v = map Some l /\ Permutation l (total v).
  Proof.
    intros (ls&(M1&M2&M3)&T&Q) D L. exists (ls v). split.
    - destruct (M2 v L) as (R1&R2&R3). unfold contents. rewrite R1.
      assert (LE : List.length (ls v) <= List.length (array (rcMem c) (hdArray (var (rcMem c) v)))).
      { destruct (ls v) as [|x l] eqn:E; [simpl; lia|]. rewrite <- E in *.
        destruct (slot_inside (rcMem c) (hdArray (var (rcMem c) v)) (pred (List.length (ls v)))) as [K _].
        - rewrite R3 by (rewrite E; simpl; lia). intro N. apply nth_error_None in N. rewrite E in N. simpl in N. lia.
        - lia. }
      apply nth_ext with (d := None) (d' := None); [rewrite firstn_length, map_length; lia|].
      intros n N. rewrite firstn_length in N. rewrite nth_firstn by lia.
      change (slot (rcMem c) (hdArray (var (rcMem c) v)) n = nth n (map Some (ls v)) None).
      rewrite R3 by lia. destruct (nth_error (ls v) n) as [y|] eqn:Y; [|apply nth_error_None in Y; lia].
      symmetry. apply nth_error_nth. rewrite nth_error_map, Y. reflexivity.
    - rewrite <- (Q v L). replace (flat_map (todo_for v) (rcThreads c)) with (@nil string); [now rewrite app_nil_r|].
      symmetry. unfold rdone in D. revert D. generalize (rcThreads c). intro ts. induction ts as [|t ts IH]; intro D; auto.
      cbn [flat_map]. rewrite IH; [|intros; apply D; now right]. unfold todo_for. rewrite (D t) by now left. reflexivity.
  Qed.
End Serial.

(** ** Every run ends *)
Section Ends.
  (** no header is longer than everything there is to append *)
  Variable bound : nat.
  Definition todo_size (t : thread) : nat := list_sum (map (fun p => List.length (snd p)) (thTodo t)).
  Definition size_left (c : rconf) : nat := list_sum (map todo_size (rcThreads c)).
  Definition pc_len (p : pc) : nat :=
    match p with AtStart => 0 | Loaded h => hdLen h | Copying h _ _ => hdLen h | Writing _ off _ => off end.
  Definition copied (p : pc) : nat := match p with Copying _ _ k => k | _ => 0 end.
  Definition binv (c : rconf) : Prop :=
    (forall v, hdLen (var (rcMem c) v) + size_left c <= bound) /\
    (forall t, In t (rcThreads c) -> pc_len (thPC t) + size_left c <= bound /\ copied (thPC t) <= pc_len (thPC t)).
  Definition tweight (t : thread) : nat :=
    match thTodo t with
    | [] => 0
    | (_, ys) :: rest =>
        list_sum (map (fun p => bound + List.length (snd p) + 4) rest) +
        match thPC t with
        | AtStart => bound + List.length ys + 4
        | Loaded _ => bound + List.length ys + 3
        | Copying _ _ k => (bound - k) + List.length ys + 2
        | Writing _ _ k => List.length ys - k + 1
        end
    end.
  Definition cweight (c : rconf) : nat := list_sum (map tweight (rcThreads c)).
  Lemma list_sum_mid {A} (f : A -> nat) l1 x l2 :
    list_sum (map f (l1 ++ x :: l2)) = list_sum (map f l1) + f x + list_sum (map f l2).
  Proof.
    rewrite map_app, list_sum_app. simpl. lia.
  Qed.
  Definition sizes (l : list (nat * list string)) : nat := list_sum (map (fun p => List.length (snd p)) l).
  Definition weights (l : list (nat * list string)) : nat :=
    list_sum (map (fun p => bound + List.length (snd p) + 4) l).
  Lemma tstep_weights R c m t m' t' :
    (forall v, hdLen (var m v) + todo_size t + R <= bound) -> pc_len (thPC t) + todo_size t + R <= bound ->
    copied (thPC t) <= pc_len (thPC t) -> tstep c m t = Some (m', t') ->
    (forall v, hdLen (var m' v) + todo_size t' + R <= bound) /\ pc_len (thPC t') + todo_size t' + R <= bound /\
    copied (thPC t') <= pc_len (thPC t') /\ todo_size t' <= todo_size t /\ tweight t' < tweight t.
  Proof.
    intros B P C E. destruct t as [p todo]. unfold tstep in E. cbn [thTodo thPC] in *.
    destruct todo as [|[v ys] rest]; [discriminate|].
    change (todo_size (Thread p ((v, ys) :: rest))) with (List.length ys + sizes rest) in *.
    assert (W : forall q, tweight (Thread q ((v, ys) :: rest)) = weights rest +
        match q with
        | AtStart => bound + List.length ys + 4
        | Loaded _ => bound + List.length ys + 3
        | Copying _ _ k => (bound - k) + List.length ys + 2
        | Writing _ _ k => List.length ys - k + 1
        end) by reflexivity.
    rewrite W.
    destruct p as [|h|h new k|a off k]; cbn [pc_len copied] in *.
    - injection E as <- <-. rewrite W. change (todo_size (Thread ?q ((v, ys) :: rest))) with (List.length ys + sizes rest).
      cbn [thPC pc_len copied]. specialize (B v) as Bv. repeat split; auto; lia.
    - destruct (Nat.leb _ _); [|destruct (Nat.leb _ _); [|discriminate]]; injection E as <- <-; rewrite W;
        change (todo_size (Thread ?q ((v, ys) :: rest))) with (List.length ys + sizes rest);
        cbn [thPC pc_len copied]; (split; [exact B|]); repeat split; auto; lia.
    - destruct (Nat.ltb_spec k (hdLen h)); injection E as <- <-; rewrite W;
        change (todo_size (Thread ?q ((v, ys) :: rest))) with (List.length ys + sizes rest);
        cbn [thPC pc_len copied]; (split; [exact B|]); repeat split; auto; lia.
    - destruct (nth_error ys k) as [y|] eqn:N; injection E as <- <-.
      + assert (k < List.length ys) by (apply nth_error_Some; congruence). rewrite W.
        change (todo_size (Thread ?q ((v, ys) :: rest))) with (List.length ys + sizes rest).
        cbn [thPC pc_len copied]. (split; [exact B|]). repeat split; auto; lia.
      + change (todo_size (Thread AtStart rest)) with (sizes rest). cbn [thPC pc_len copied].
        assert (tweight (Thread AtStart rest) <= weights rest).
        { destruct rest as [|[w zs] r]; [change (0 <= 0); lia|].
          change (weights r + (bound + List.length zs + 4) <= (bound + List.length zs + 4) + weights r). lia. }
        repeat split; auto; try lia. intro w. unfold var. cbn [mVars]. rewrite nth_set_nth.
        destruct (_ && _); cbn [hdLen]; [lia|]. specialize (B w). unfold var in B. lia.
  Qed.
  Lemma binv_step c c' : binv c -> rstep c c' -> binv c' /\ cweight c' < cweight c.
  Proof.
    intros [B1 B2] H. destruct H as [cap m m' l1 t t' l2 E].
    unfold binv, cweight, size_left in *. cbn [rcMem rcThreads] in *. rewrite !list_sum_mid in *.
    destruct (B2 t) as [T1 T2]; [apply in_or_app; right; now left|].
    destruct (tstep_weights (list_sum (map todo_size l1) + list_sum (map todo_size l2)) cap m t m' t')
      as (K1&K2&K3&K4&K5); auto; [intro v; specialize (B1 v); lia|lia|].
    split; [|lia]. split.
    - intro v. specialize (K1 v). lia.
    - intros u Hu. apply in_app_or in Hu as [Hu|[<-|Hu]].
      + destruct (B2 u) as [X Y]; [apply in_or_app; auto|]. split; auto. lia.
      + split; auto. lia.
      + destruct (B2 u) as [X Y]; [apply in_or_app; simpl; auto|]. split; auto. lia.
  Qed.
End Ends.
Inductive steps_n : nat -> rconf -> rconf -> Prop :=
| steps_0 c : steps_n 0 c c
| steps_S n c c' c'' : steps_n n c c' -> rstep c' c'' -> steps_n (S n) c c''.
Lemma binv_run b n c c' : steps_n n c c' -> binv b c -> binv b c' /\ cweight b c' + n <= cweight b c.
Proof.
  induction 1 as [c|n c c' c'' R IH S]; intro B; [split; [auto|lia]|].
  destruct (IH B) as [B' W]. destruct (binv_step b c' c'' B' S). split; auto. lia.
Qed.
Lemma rprogress c : rdone c \/ exists c', rstep c c'.
Proof.
  destruct c as [m ts].
  assert (X : rdone (RConf m ts) \/ exists l1 t l2, ts = (l1 ++ t :: l2)%list /\ thTodo t <> []).
  { unfold rdone. cbn [rcThreads]. induction ts as [|t ts IH]; [left; intros ? []|].
    destruct (thTodo t) eqn:T.
    - destruct IH as [IH|(l1&u&l2&->&N)]; [left; intros u [<-|H]; auto|right].
      exists (t :: l1), u, l2. auto.
    - right. exists [], t, ts. split; auto. congruence. }
  destruct X as [D|(l1&t&l2&->&N)]; [now left|right].
  destruct t as [p todo]. cbn [thTodo] in N. destruct todo as [|[v ys] rest]; [congruence|].
  set (len := match p with Loaded h => hdLen h | _ => 0 end).
  destruct (tstep (len + List.length ys) m (Thread p ((v, ys) :: rest))) as [[m' t']|] eqn:E.
  - exists (RConf m' (l1 ++ t' :: l2)). now apply rstep_thread with (c := len + List.length ys).
  - exfalso. revert E. unfold tstep. cbn [thTodo thPC]. destruct p as [|h|h new k|a off k]; try discriminate.
    + unfold len. rewrite Nat.leb_refl. destruct (Nat.leb _ _); discriminate.
    + destruct (Nat.ltb _ _); discriminate.
    + destruct (nth_error ys k); discriminate.
Qed.
