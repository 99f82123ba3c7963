(** * StackProofs: specification and lemmas for the Stack of pkg/hydratables/schema.go *)
From Verif Require Import GoBase SchemaModel.
Local Open Scope list_scope.

(** ** Specification: operations on an abstract stack (a list, top last) *)
Inductive stack_op (A : Type) := OpPush (x : A) (grow : list A) | OpPop.
Arguments OpPush {A} x grow.
Arguments OpPop {A}.
(** one step: new stack and what Pop returned *)
Inductive stack_step {A} : list A -> stack_op A -> list A -> option (option A) -> Prop :=
| step_push l x g : stack_step l (OpPush x g) (l ++ [x]) None
| step_pop l x : stack_step (l ++ [x]) OpPop l (Some (Some x))
| step_pop_empty : stack_step [] OpPop [] (Some None).
Inductive stack_run {A} : list A -> list (stack_op A) -> list A -> list (option (option A)) -> Prop :=
| run_nil l : stack_run l [] l []
| run_cons l o l1 r os l2 rs :
    stack_step l o l1 r -> stack_run l1 os l2 rs -> stack_run l (o :: os) l2 (r :: rs).

(** the model running a sequence of operations on one stack variable *)
Section Run.
  Context {A : Type}.
  Definition exec1 (h : heap) (s : slice) (o : stack_op A) : heap * slice * option (option A) :=
    match o with
    | OpPush x g => let '(h', s') := stack_push g h s x in (h', s', None)
    | OpPop => let '(s', r) := stack_pop h s in (h, s', Some r)
    end.
  Fixpoint exec (h : heap) (s : slice) (os : list (stack_op A))
    : heap * slice * list (option (option A)) :=
    match os with
    | [] => (h, s, [])
    | o :: os => let '(h1, s1, r) := exec1 h s o in
                 let '(h2, s2, rs) := exec h1 s1 os in (h2, s2, r :: rs)
    end.

  Definition valid (h : heap (A := A)) (s : slice) : Prop :=
    (s_arr s < length h)%nat /\ (s_len s <= length (arr_of h s))%nat.

  Lemma set_nth_length {B} n (x : B) l : length (set_nth n x l) = length l.
  Proof. revert l; induction n; destruct l; simpl; auto. Qed.
  Lemma nth_set_nth {B} n m (x d : B) l :
    nth m (set_nth n x l) d = if Nat.eqb n m then (if (n <? length l)%nat then x else d) else nth m l d.
  Proof.
    revert n m; induction l as [|y t IH]; simpl; intros n m.
    - destruct n, m; simpl; auto. destruct (Nat.eqb n m); auto.
    - destruct n, m; simpl; auto. rewrite IH. destruct (Nat.eqb n m); auto.
  Qed.
  Lemma firstn_set_nth {B} n (x : B) l : (n < length l)%nat ->
    firstn (S n) (set_nth n x l) = firstn n l ++ [x].
  Proof. revert l; induction n; destruct l; simpl; intro H; try lia; auto. f_equal. apply (IHn l). lia. Qed.
  Lemma firstn_set_nth_ge {B} n m (x : B) l : (m <= n)%nat -> firstn m (set_nth n x l) = firstn m l.
  Proof. revert m l; induction n; destruct m, l; simpl; intro H; auto; try lia. f_equal. apply IHn; lia. Qed.

  Lemma contents_length h s : valid h s -> length (contents (A:=A) h s) = s_len s.
  Proof. intros [_ H]. unfold contents. rewrite firstn_length. lia. Qed.

  Lemma push_spec g h s x : valid h s ->
    let '(h', s') := stack_push g h s x in
    valid h' s' /\ contents h' s' = contents h s ++ [x] /\ (length h <= length h')%nat /\
    (forall t, valid h t -> s_arr t <> s_arr s -> valid h' t /\ contents h' t = contents h t /\ s_arr t <> s_arr s').
  Proof.
    intros [V1 V2]. unfold stack_push, append1.
    destruct (Nat.ltb_spec (s_len s) (length (arr_of h s))) as [L|L].
    - assert (E : arr_of (set_nth (s_arr s) (set_nth (s_len s) x (arr_of h s)) h) (Slice (s_arr s) (S (s_len s)))
                  = set_nth (s_len s) x (arr_of h s)).
      { unfold arr_of at 1. simpl. rewrite nth_set_nth, Nat.eqb_refl.
        destruct (Nat.ltb_spec (s_arr s) (length h)); auto; lia. }
      split; [|split; [|split]].
      + split; simpl; [rewrite set_nth_length; auto|]. rewrite E, set_nth_length. lia.
      + unfold contents at 1. rewrite E. simpl s_len. rewrite firstn_set_nth; auto.
      + rewrite set_nth_length. auto.
      + intros t [T1 T2] N. assert (Et : arr_of (set_nth (s_arr s) (set_nth (s_len s) x (arr_of h s)) h) t = arr_of h t).
        { unfold arr_of at 1. rewrite nth_set_nth. destruct (Nat.eqb_spec (s_arr s) (s_arr t)); auto. congruence. }
        unfold valid, contents. rewrite Et, set_nth_length. auto.
    - assert (E : arr_of (h ++ [contents h s ++ x :: g]) (Slice (length h) (S (s_len s))) = contents h s ++ x :: g).
      { unfold arr_of at 1. simpl. rewrite app_nth2, Nat.sub_diag; auto. }
      assert (Lc : length (contents h s) = s_len s) by (apply contents_length; split; auto).
      split; [|split; [|split]].
      + split; simpl; [rewrite app_length; simpl; lia|]. rewrite E, app_length. simpl. lia.
      + unfold contents at 1. rewrite E. simpl s_len.
        replace (contents h s ++ x :: g) with ((contents h s ++ [x]) ++ g) by now rewrite <- app_assoc.
        rewrite firstn_app. rewrite app_length, Lc. cbn [length].
        replace (S (s_len s) - (s_len s + 1))%nat with 0%nat by lia.
        change (firstn 0 g) with (@nil A). rewrite app_nil_r.
        apply firstn_all2. rewrite app_length. cbn [length]. lia.
      + rewrite app_length. lia.
      + intros t [T1 T2] N. unfold valid, contents, arr_of. rewrite app_length.
        rewrite app_nth1 by auto. simpl. repeat split; auto; lia.
  Qed.

  Lemma pop_spec h s : valid h s ->
    let '(s', r) := stack_pop (A:=A) h s in
    valid h s' /\ s_arr s' = s_arr s /\
    ((contents h s = [] /\ contents h s' = [] /\ r = None) \/
     exists x, r = Some x /\ contents h s = contents h s' ++ [x]).
  Proof.
    intros [V1 V2]. unfold stack_pop, stack_is_empty.
    assert (Lc : length (contents h s) = s_len s) by (apply contents_length; split; auto).
    destruct (Nat.eqb_spec (s_len s) 0) as [Z|Z].
    - assert (contents h s = []) by (destruct (contents h s); simpl in *; auto; lia).
      split; [split; auto|]. split; auto.
    - split; [split; simpl; auto; unfold arr_of in *; simpl; lia|]. split; auto. right.
      destruct (nth_error (contents h s) (s_len s - 1)) as [x|] eqn:E.
      + exists x. split; auto.
        apply nth_error_split in E as (l1&l2&E1&E2).
        assert (l2 = []) as ->.
        { rewrite E1, app_length in Lc. simpl in Lc. destruct l2; auto. simpl in Lc. lia. }
        assert (contents h (Slice (s_arr s) (s_len s - 1)) = l1) as ->; auto.
        assert (F : contents h (Slice (s_arr s) (s_len s - 1)) = firstn (s_len s - 1) (contents h s)).
        { unfold contents. simpl. rewrite firstn_firstn. rewrite Nat.min_l by lia. reflexivity. }
        rewrite F, E1, firstn_app, E2, Nat.sub_diag. simpl. rewrite app_nil_r.
        apply firstn_all2. lia.
      + apply nth_error_None in E. lia.
  Qed.

  Lemma exec_spec os : forall h s h' s' rs, valid h s -> exec h s os = (h', s', rs) ->
    valid h' s' /\ stack_run (contents h s) os (contents h' s') rs /\
    (forall t, valid h t -> s_arr t <> s_arr s -> valid h' t /\ contents h' t = contents h t).
  Proof.
    induction os as [|o os IH]; simpl; intros h s h' s' rs V E.
    - injection E; intros <- <- <-. repeat split; auto; try apply V; try constructor; apply H.
    - destruct (exec1 h s o) as [[h1 s1] r] eqn:E1. destruct (exec h1 s1 os) as [[h2 s2] rs2] eqn:E2.
      injection E; intros <- <- <-. destruct o as [x g|]; simpl in E1.
      + pose proof (push_spec g h s x V) as P. destruct (stack_push g h s x) as [h3 s3].
        injection E1; intros <- <- <-. destruct P as (V1&C1&_&F1).
        destruct (IH _ _ _ _ _ V1 E2) as (V2&R2&F2). repeat split; try apply V2.
        * econstructor; [|exact R2]. rewrite C1. constructor.
        * destruct (F1 t H H0) as (T1&T2&T3). destruct (F2 t T1 T3) as (T4&T5). apply T4.
        * destruct (F1 t H H0) as (T1&T2&T3). destruct (F2 t T1 T3) as (T4&T5). apply T4.
        * destruct (F1 t H H0) as (T1&T2&T3). destruct (F2 t T1 T3) as (T4&T5). congruence.
      + pose proof (pop_spec h s V) as P. destruct (stack_pop h s) as [s3 r3].
        injection E1; intros <- <- <-. destruct P as (V1&A1&C1).
        destruct (IH _ _ _ _ _ V1 E2) as (V2&R2&F2). rewrite A1 in F2.
        repeat split; try apply V2.
        * econstructor; [|exact R2]. destruct C1 as [(C1&C2&->)|(x&->&C1)].
          -- rewrite C1, C2. constructor.
          -- rewrite C1. constructor.
        * now destruct (F2 t H H0) as ((?&?)&_).
        * now destruct (F2 t H H0) as ((?&?)&_).
        * now destruct (F2 t H H0) as (_&?).
  Qed.

  Lemma copy_spec h s : valid h s ->
    let '(h', c) := stack_copy (A:=A) h s in
    valid h' c /\ valid h' s /\ contents h' c = contents h s /\ contents h' s = contents h s /\
    s_arr c <> s_arr s.
  Proof.
    intros [V1 V2]. unfold stack_copy. simpl.
    assert (Ea : arr_of (h ++ [contents h s]) s = arr_of h s)
      by (unfold arr_of; rewrite app_nth1; auto).
    assert (Lc : length (contents h s) = s_len s) by (apply contents_length; split; auto).
    assert (Ec : arr_of (h ++ [contents h s]) (Slice (length h) (s_len s)) = contents h s)
      by (unfold arr_of at 1; simpl; rewrite app_nth2, Nat.sub_diag; auto).
    repeat split; simpl; try rewrite app_length; simpl; try lia.
    - rewrite Ec. lia.
    - rewrite Ea. auto.
    - unfold contents at 1. rewrite Ec. simpl. apply firstn_all2. lia.
    - unfold contents at 1. rewrite Ea. reflexivity.
  Qed.
End Run.
