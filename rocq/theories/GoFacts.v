(** * GoFacts: lemmas about GoBase. *)
From Verif Require Export GoBase GoSpec.
Local Open Scope string_scope.

(** ** Strings *)

Lemma eqb_true_iff a b : String.eqb a b = true <-> a = b.
Proof. apply String.eqb_eq. Qed.
Lemma seqb_refl a : String.eqb a a = true.
Proof. apply String.eqb_refl. Qed.
Lemma seqb_false a b : a <> b -> String.eqb a b = false.
Proof. intro H. now apply String.eqb_neq. Qed.

Lemma nonempty_iff s : nonempty s = true <-> s <> "".
Proof. destruct s; simpl; split; congruence. Qed.
Lemma nonempty_false s : nonempty s = false <-> s = "".
Proof. destruct s; simpl; split; congruence. Qed.

Lemma append_nil_r s : s ++ "" = s.
Proof. induction s; simpl; congruence. Qed.
Lemma append_assoc a b c : (a ++ b) ++ c = a ++ (b ++ c).
Proof. induction a; simpl; congruence. Qed.
Lemma append_inj_l a b c : a ++ b = a ++ c -> b = c.
Proof. induction a; simpl; intro H; auto. injection H; auto. Qed.

Lemma slength_app a b : String.length (a ++ b) = (String.length a + String.length b)%nat.
Proof. induction a; simpl; auto. Qed.
Lemma append_inj_r a b c : a ++ c = b ++ c -> a = b.
Proof.
  revert b; induction a as [|x a IH]; intros [|y b] Q; auto.
  - apply (f_equal String.length) in Q. rewrite !slength_app in Q. simpl in Q. lia.
  - apply (f_equal String.length) in Q. rewrite !slength_app in Q. simpl in Q. lia.
  - simpl in Q. injection Q; intros Q' ->. f_equal. auto.
Qed.

Lemma has_char_false_iff c s : has_char c s = false <-> free_of c s.
Proof.
  induction s as [|a s IH]; simpl; [tauto|].
  rewrite orb_false_iff, IH, Ascii.eqb_neq. tauto.
Qed.

Lemma has_char_app c a b : has_char c (a ++ b) = has_char c a || has_char c b.
Proof. induction a; simpl; auto. rewrite IHa, orb_assoc. auto. Qed.

Lemma free_of_app c a b : free_of c (a ++ b) <-> free_of c a /\ free_of c b.
Proof. induction a; simpl; tauto. Qed.

Lemma cut_Some_iff c s b t :
  cut c s = Some (b, t) <-> s = b ++ String c t /\ free_of c b.
Proof.
  revert b t; induction s as [|a s IH]; intros b t; simpl.
  - split; [discriminate|]. intros [H _]. destruct b; discriminate.
  - destruct (Ascii.eqb_spec a c) as [->|N].
    + split.
      * intro H; injection H; intros <- <-. simpl; auto.
      * intros [H F]. destruct b as [|b0 b]; simpl in *.
        -- injection H; intros <-; auto.
        -- injection H; intros _ <-. destruct F; congruence.
    + destruct (cut c s) as [[b' t']|] eqn:E.
      * destruct (proj1 (IH b' t') eq_refl) as [-> F].
        split.
        -- intro H; injection H; intros <- <-. simpl; auto.
        -- intros [H F']. destruct b as [|b0 b]; simpl in *.
           ++ injection H; congruence.
           ++ injection H; intros H' <-.
              assert (Some (b', t') = Some (b, t)) as Q.
              { apply IH. tauto. }
              congruence.
      * split; [discriminate|]. intros [H F'].
        destruct b as [|b0 b]; simpl in *.
        -- injection H; congruence.
        -- injection H; intros H' <-.
           assert (None = Some (b, t)) as Q by (apply IH; tauto). discriminate.
Qed.

Lemma cut_None_iff c s : cut c s = None <-> free_of c s.
Proof.
  induction s as [|a s IH]; simpl; [tauto|].
  destruct (Ascii.eqb_spec a c) as [->|N].
  - split; [discriminate|tauto].
  - destruct (cut c s) as [[b t]|]; [|tauto].
    split; [discriminate|]. intros [_ H]. now apply IH in H.
Qed.

(** ** Go's string order *)

Lemma scompare_refl a : String.compare a a = Eq.
Proof.
  induction a as [|c a IH]; simpl; auto.
  unfold Ascii.compare. now rewrite N.compare_refl.
Qed.
Lemma slt_irrefl a : ~ slt a a.
Proof. unfold slt. rewrite scompare_refl. discriminate. Qed.

Lemma ascii_compare_trans a b c o :
  Ascii.compare a b = o -> Ascii.compare b c = o -> Ascii.compare a c = o.
Proof.
  unfold Ascii.compare. destruct o; rewrite ?N.compare_eq_iff, ?N.compare_lt_iff, ?N.compare_gt_iff; lia.
Qed.
Lemma ascii_compare_eq a b : Ascii.compare a b = Eq <-> a = b.
Proof.
  unfold Ascii.compare. rewrite N.compare_eq_iff. split; [|congruence].
  intro H. apply (f_equal ascii_of_N) in H. now rewrite !ascii_N_embedding in H.
Qed.

Lemma slt_trans a b c : slt a b -> slt b c -> slt a c.
Proof.
  unfold slt. revert b c; induction a as [|x a IH]; intros [|y b] [|z c]; simpl; try discriminate; auto.
  destruct (Ascii.compare x y) eqn:E1; try discriminate;
  destruct (Ascii.compare y z) eqn:E2; try discriminate; intros H1 H2.
  - rewrite (ascii_compare_trans _ _ _ _ E1 E2). eauto.
  - apply ascii_compare_eq in E1; subst. now rewrite E2.
  - apply ascii_compare_eq in E2; subst. now rewrite E1.
  - now rewrite (ascii_compare_trans _ _ _ _ E1 E2).
Qed.

Lemma slt_total a b : slt a b \/ a = b \/ slt b a.
Proof.
  unfold slt. rewrite (String.compare_antisym b a).
  destruct (String.compare a b) eqn:E; simpl; auto.
  apply String.compare_eq_iff in E; auto.
Qed.

Lemma ltb_iff a b : String.ltb a b = true <-> slt a b.
Proof. unfold String.ltb, slt. destruct (String.compare a b); split; congruence. Qed.
Lemma ltb_false_iff a b : String.ltb a b = false <-> sle b a.
Proof.
  unfold sle. split.
  - intro H. destruct (slt_total a b) as [L|[E|L]]; auto.
    apply ltb_iff in L; congruence.
  - intros [->|L].
    + destruct (String.ltb a a) eqn:E; auto. apply ltb_iff in E. now apply slt_irrefl in E.
    + destruct (String.ltb a b) eqn:E; auto. apply ltb_iff in E.
      destruct (slt_irrefl a). eapply slt_trans; eauto.
Qed.
Lemma sle_trans a b c : sle a b -> sle b c -> sle a c.
Proof.
  unfold sle. intros [->|H] [->|H']; auto. right; eapply slt_trans; eauto.
Qed.
Lemma sle_antisym a b : sle a b -> sle b a -> a = b.
Proof.
  unfold sle. intros [->|H] [E|H']; auto. destruct (slt_irrefl a). eapply slt_trans; eauto.
Qed.
Lemma slt_sle_trans a b c : slt a b -> sle b c -> slt a c.
Proof. intros H [->|H']; auto. eapply slt_trans; eauto. Qed.
Lemma sle_slt_trans a b c : sle a b -> slt b c -> slt a c.
Proof. intros [->|H] H'; auto. eapply slt_trans; eauto. Qed.
Lemma slt_neq a b : slt a b -> a <> b.
Proof. intros H ->. now apply slt_irrefl in H. Qed.
Lemma slt_not_sle a b : slt a b -> ~ sle b a.
Proof. intros H H'. eapply slt_irrefl, slt_sle_trans; eauto. Qed.

Local Close Scope string_scope.
Local Open Scope list_scope.

(** ** Strict weak orders *)

(** [lt] is a strict weak order on the elements satisfying [P]. *)
Definition swo {A} (P : A -> Prop) (lt : A -> A -> bool) : Prop :=
  (forall x y, P x -> P y -> lt x y = true -> lt y x = false) /\
  (forall x y z, P x -> P y -> P z -> lt y x = false -> lt z y = false -> lt z x = false).

Lemma swo_string : swo (fun _ => True) String.ltb.
Proof.
  split.
  - intros x y _ _ H. apply ltb_iff in H. apply ltb_false_iff. now right.
  - intros x y z _ _ _. rewrite !ltb_false_iff. intros; eapply sle_trans; eauto.
Qed.

Lemma swo_by {A B} (P : A -> Prop) (f : A -> B) lt :
  swo (fun _ => True) lt -> swo P (fun x y => lt (f x) (f y)).
Proof. intros [H1 H2]. split; eauto. Qed.

(** lexicographic combination, as written in the code:
    [if a == b then less2 else less1] *)
Lemma swo_lex {A} (P : A -> Prop) (f : A -> string) lt2 :
  swo P lt2 ->
  swo P (fun x y => if String.eqb (f x) (f y) then lt2 x y else String.ltb (f x) (f y)).
Proof.
  intros [H1 H2]. split.
  - intros x y Px Py. rewrite (String.eqb_sym (f y)).
    destruct (String.eqb_spec (f x) (f y)) as [E|N]; eauto.
    intro H. apply ltb_iff in H. apply ltb_false_iff. now right.
  - intros x y z Px Py Pz.
    destruct (String.eqb_spec (f y) (f x)) as [E1|N1];
    destruct (String.eqb_spec (f z) (f y)) as [E2|N2];
    destruct (String.eqb_spec (f z) (f x)) as [E3|N3];
    try (exfalso; congruence);
    rewrite ?ltb_false_iff; intros L1 L2.
    + eauto.
    + rewrite <- E1; auto.
    + rewrite E2; auto.
    + rewrite E3 in L2, N2. assert (f x = f y) by (now apply sle_antisym). congruence.
    + eapply sle_trans; eauto.
Qed.

(** ** Stable insertion sort *)
Section SortFacts.
  Context {A : Type} (lt : A -> A -> bool).

  Lemma insert_perm x l : Permutation (x :: l) (insert lt x l).
  Proof.
    induction l as [|y t IH]; simpl; auto.
    destruct (lt y x); auto. rewrite perm_swap. now constructor.
  Qed.

  Lemma isort_perm l : Permutation l (isort lt l).
  Proof.
    induction l as [|x t IH]; simpl; auto.
    rewrite <- insert_perm. now constructor.
  Qed.

  Lemma isort_in l x : In x (isort lt l) <-> In x l.
  Proof.
    split; apply Permutation_in; [symmetry|]; apply isort_perm.
  Qed.

  Lemma isort_length l : length (isort lt l) = length l.
  Proof. symmetry. apply Permutation_length, isort_perm. Qed.

  Context (P : A -> Prop).
  Hypothesis SW : swo P lt.

  Lemma insert_sorted x l :
    P x -> Forall P l ->
    StronglySorted (fun a b => lt b a = false) l ->
    StronglySorted (fun a b => lt b a = false) (insert lt x l).
  Proof.
    destruct SW as [Asym NTr].
    intros Px Pl. induction l as [|y t IH]; simpl; intro S.
    - repeat constructor.
    - inversion S as [|? ? S' F]; subst. inversion Pl as [|? ? Py Pt]; subst.
      destruct (lt y x) eqn:E.
      + constructor; [auto|]. rewrite Forall_forall in *. intros z Hz.
        apply (Permutation_in _ (Permutation_sym (insert_perm x t))) in Hz.
        destruct Hz as [<-|Hz]; eauto.
      + constructor; [auto|]. constructor; auto.
        rewrite Forall_forall in *. intros z Hz. eauto.
  Qed.

  Lemma isort_sorted l :
    Forall P l -> StronglySorted (fun a b => lt b a = false) (isort lt l).
  Proof.
    induction l as [|x t IH]; simpl; intro F; [constructor|].
    inversion F as [|? ? Px Pt]; subst. apply insert_sorted; auto.
    - rewrite Forall_forall in Pt |- *. intros z Hz. rewrite isort_in in Hz; auto.
  Qed.

  Lemma insert_stable x l z :
    P x -> P z -> Forall P l ->
    filter (fun y => negb (lt z y) && negb (lt y z)) (insert lt x l)
    = filter (fun y => negb (lt z y) && negb (lt y z)) (x :: l).
  Proof.
    destruct SW as [Asym NTr].
    intros Px Pz Pl. induction l as [|y t IH]; [reflexivity|].
    inversion Pl as [|? ? Py Pt]; subst.
    cbn [insert]. destruct (lt y x) eqn:E; [|reflexivity].
    cbn [filter] in *. rewrite IH by auto.
    destruct (negb (lt z x) && negb (lt x z)) eqn:E1;
    destruct (negb (lt z y) && negb (lt y z)) eqn:E2; try reflexivity.
    exfalso. apply andb_true_iff in E1, E2.
    destruct E1 as [A1 A2], E2 as [B1 B2].
    apply negb_true_iff in A1, A2, B1, B2.
    assert (lt y x = false) by eauto. congruence.
  Qed.

  Lemma isort_stable l z :
    P z -> Forall P l ->
    filter (fun y => negb (lt z y) && negb (lt y z)) (isort lt l)
    = filter (fun y => negb (lt z y) && negb (lt y z)) l.
  Proof.
    induction l as [|x t IH]; simpl; intros Pz F; [reflexivity|].
    inversion F as [|? ? Px Pt]; subst. rewrite insert_stable; auto.
    - simpl. rewrite IH; auto.
    - rewrite Forall_forall in *. intros y Hy. rewrite isort_in in Hy; auto.
  Qed.
End SortFacts.

Lemma isort_stably_sorted_on {A} (P : A -> Prop) (lt : A -> A -> bool) l :
  swo P lt -> Forall P l -> stably_sorted lt l (isort lt l).
Proof.
  intros SW F. repeat split.
  - apply isort_perm.
  - eapply isort_sorted; eauto.
  - intros x Hx. apply isort_stable with (P := P); auto. rewrite Forall_forall in F; auto.
Qed.
Lemma isort_stably_sorted {A} (lt : A -> A -> bool) l :
  swo (fun _ => True) lt -> stably_sorted lt l (isort lt l).
Proof. intro SW. apply isort_stably_sorted_on with (P := fun _ => True); auto. apply Forall_forall; auto. Qed.

Lemma isort_map {A B} (f : A -> B) lt l :
  isort lt (map f l) = map f (isort (fun x y => lt (f x) (f y)) l).
Proof.
  induction l as [|x t IH]; cbn [map isort]; auto. rewrite IH.
  generalize (isort (fun x y => lt (f x) (f y)) t) as m. clear. induction m as [|y m IH]; cbn; auto.
  destruct (lt (f y) (f x)); cbn; auto. now rewrite IH.
Qed.
Lemma isort_ext {A} (lt lt' : A -> A -> bool) l :
  (forall x y, lt x y = lt' x y) -> isort lt l = isort lt' l.
Proof.
  intro E. induction l as [|x t IH]; cbn [isort]; auto. rewrite IH.
  generalize (isort lt' t) as m. induction m as [|y m IHm]; cbn; auto.
  rewrite E. destruct (lt' y x); auto. now rewrite IHm.
Qed.

(** The notion determines the result. *)
Lemma filter_nil_perm {A} (f : A -> bool) l l' :
  Permutation l l' -> filter f l = [] -> filter f l' = [].
Proof.
  intros HP H. destruct (filter f l') as [|x t] eqn:E; auto.
  assert (I : In x (filter f l')) by (rewrite E; simpl; auto).
  apply filter_In in I. destruct I as [I Hf].
  apply (Permutation_in _ (Permutation_sym HP)) in I.
  assert (In x (filter f l)) by (apply filter_In; auto). rewrite H in *. contradiction.
Qed.

Lemma sorted_perm_unique {A} (R : A -> A -> Prop) l l' :
  (forall x y, In x l -> In y l -> R x y -> R y x -> x = y) ->
  StronglySorted R l -> StronglySorted R l' -> Permutation l l' -> l = l'.
Proof.
  intros Anti S S'. revert l' S'. induction S as [|x l S IH F]; intros l' S' HP.
  - apply Permutation_nil in HP; auto.
  - destruct l' as [|y l']; [symmetry in HP; apply Permutation_nil in HP; discriminate|].
    inversion S' as [|? ? S'' F']; subst.
    assert (x = y) as ->.
    { assert (I1 : In x (y :: l')) by (eapply Permutation_in; eauto; simpl; auto).
      assert (I2 : In y (x :: l)) by (eapply Permutation_in; [symmetry; eauto|]; simpl; auto).
      destruct I1 as [->|I1]; auto. destruct I2 as [->|I2]; auto.
      rewrite Forall_forall in F, F'. apply Anti; simpl; auto. }
    f_equal. apply IH; auto.
    + intros; apply Anti; simpl; auto.
    + eapply Permutation_cons_inv; eauto.
Qed.

(** Sorting two rearrangements of the same elements by a strict weak order that
    separates distinct elements gives the same list. *)
Lemma isort_perm_eq {A} (lt : A -> A -> bool) (l l' : list A) :
  swo (fun _ => True) lt ->
  (forall x y, In x l -> In y l -> lt x y = false -> lt y x = false -> x = y) ->
  Permutation l l' -> isort lt l = isort lt l'.
Proof.
  intros SW Sep HP.
  assert (F : forall m, Forall (fun _ : A => True) m) by (intro; apply Forall_forall; auto).
  apply sorted_perm_unique with (R := fun a b => lt b a = false).
  - intros x y Hx Hy. rewrite isort_in in Hx, Hy. eauto.
  - eapply isort_sorted; eauto.
  - eapply isort_sorted; eauto.
  - rewrite <- !isort_perm. auto.
Qed.

(** ** Association lists *)
Section MapFacts.
  Context {K V : Type} (keq : K -> K -> bool).
  Hypothesis keqP : forall a b, keq a b = true <-> a = b.

  Lemma keq_refl k : keq k k = true. Proof. now apply keqP. Qed.
  Lemma keq_neq a b : a <> b -> keq a b = false.
  Proof. intro N. destruct (keq a b) eqn:E; auto. apply keqP in E; contradiction. Qed.

  Lemma mget_mset_eq k (v : V) m : mget keq k (mset keq k v m) = Some v.
  Proof.
    induction m as [|[k' v'] t IH]; simpl.
    - now rewrite keq_refl.
    - destruct (keq k' k) eqn:E; simpl; rewrite E; auto.
  Qed.

  Lemma mget_mset_neq k k2 (v : V) m : k2 <> k -> mget keq k2 (mset keq k v m) = mget keq k2 m.
  Proof.
    intro N. induction m as [|[k' v'] t IH]; simpl.
    - rewrite keq_neq; auto.
    - destruct (keq k' k) eqn:E; simpl.
      + apply keqP in E; subst. rewrite !keq_neq by auto. auto.
      + destruct (keq k' k2); auto.
  Qed.

  Lemma mget_mset k k2 (v : V) m :
    mget keq k2 (mset keq k v m) = if keq k k2 then Some v else mget keq k2 m.
  Proof.
    destruct (keq k k2) eqn:E.
    - apply keqP in E; subst. apply mget_mset_eq.
    - apply mget_mset_neq. intros ->. now rewrite keq_refl in E.
  Qed.

  Lemma mget_In k (v : V) m : mget keq k m = Some v -> In (k, v) m.
  Proof.
    induction m as [|[k' v'] t IH]; simpl; [discriminate|].
    destruct (keq k' k) eqn:E; [|auto]. apply keqP in E; subst.
    intro H; injection H; intros ->; auto.
  Qed.

  Lemma mget_None k (m : list (K * V)) : mget keq k m = None <-> ~ In k (map fst m).
  Proof.
    induction m as [|[k' v'] t IH]; simpl; [tauto|].
    destruct (keq k' k) eqn:E.
    - apply keqP in E; subst. split; [discriminate|]. intros H; destruct H; auto.
    - rewrite IH. split; [|tauto]. intros H [->|H']; auto. now rewrite keq_refl in E.
  Qed.

  Lemma In_mget k (v : V) m : NoDup (map fst m) -> In (k, v) m -> mget keq k m = Some v.
  Proof.
    induction m as [|[k' v'] t IH]; simpl; [tauto|].
    intros ND [H|H]; inversion ND as [|? ? Hni ND']; subst.
    - injection H; intros -> ->. now rewrite keq_refl.
    - rewrite keq_neq; auto. intros ->. apply Hni. apply in_map_iff. exists (k, v); auto.
  Qed.

  Lemma mget_Some_iff k (v : V) m : NoDup (map fst m) -> (mget keq k m = Some v <-> In (k, v) m).
  Proof. split; [apply mget_In | now apply In_mget]. Qed.

  Lemma mset_keys k (v : V) m :
    map fst (mset keq k v m) = if match mget keq k m with Some _ => true | None => false end
                               then map fst m else map fst m ++ [k].
  Proof.
    induction m as [|[k' v'] t IH]; simpl; auto.
    destruct (keq k' k) eqn:E; simpl; auto. rewrite IH.
    destruct (mget keq k t); auto.
  Qed.

  Lemma mset_keys_In k (v : V) m x : In x (map fst (mset keq k v m)) <-> x = k \/ In x (map fst m).
  Proof.
    rewrite mset_keys. destruct (mget keq k m) eqn:E.
    - split; auto. intros [->|]; auto. apply mget_In in E.
      apply in_map_iff. exists (k, v0); auto.
    - rewrite in_app_iff. simpl. intuition.
  Qed.

  Lemma mset_NoDup k (v : V) m : NoDup (map fst m) -> NoDup (map fst (mset keq k v m)).
  Proof.
    intro ND. rewrite mset_keys. destruct (mget keq k m) eqn:E; auto.
    apply mget_None in E. 
    apply Permutation_NoDup with (l := k :: map fst m).
    - apply Permutation_cons_append.
    - constructor; auto.
  Qed.

  Lemma mget_perm k (m m' : list (K * V)) :
    NoDup (map fst m) -> Permutation m m' -> mget keq k m = mget keq k m'.
  Proof.
    intros ND HP.
    assert (ND' : NoDup (map fst m')).
    { eapply Permutation_NoDup; [|exact ND]. now apply Permutation_map. }
    destruct (mget keq k m) as [v|] eqn:E.
    - apply mget_In in E. symmetry. apply In_mget; auto. eapply Permutation_in; eauto.
    - symmetry. apply mget_None. apply mget_None in E. intro H; apply E.
      eapply Permutation_in; [|exact H]. symmetry. now apply Permutation_map.
  Qed.
End MapFacts.

Lemma seqP : forall a b, String.eqb a b = true <-> a = b.
Proof. apply String.eqb_eq. Qed.

(** ** First-occurrence filter *)
Section UniqFacts.
  Context {A : Type} (eqb : A -> A -> bool).
  Hypothesis eqbP : forall a b, eqb a b = true <-> a = b.

  Lemma mem_In x l : mem eqb x l = true <-> In x l.
  Proof.
    induction l as [|y t IH]; simpl; [split; [discriminate|tauto]|].
    rewrite orb_true_iff, IH, eqbP. tauto.
  Qed.
  Lemma mem_false x l : mem eqb x l = false <-> ~ In x l.
  Proof. rewrite <- mem_In. destruct (mem eqb x l); split; congruence. Qed.

  Lemma uniq_acc_In seen l x : In x (uniq_acc eqb seen l) <-> In x l /\ ~ In x seen.
  Proof.
    revert seen; induction l as [|y t IH]; simpl; intro seen; [tauto|].
    destruct (mem eqb y seen) eqn:E.
    - rewrite IH. apply mem_In in E. split.
      + tauto.
      + intros [[->|H] N]; auto; contradiction.
    - apply mem_false in E. simpl. rewrite IH. simpl. split.
      + intros [->|[H N]]; tauto.
      + intros [[->|H] N]; auto.
        destruct (eqb y x) eqn:Q.
        * apply eqbP in Q; auto.
        * right. split; auto. intros [->|]; auto.
          assert (eqb x x = true) by now apply eqbP. congruence.
  Qed.
  Lemma uniq_In l x : In x (uniq eqb l) <-> In x l.
  Proof. unfold uniq. rewrite uniq_acc_In. simpl. tauto. Qed.

  Lemma uniq_acc_NoDup seen l : NoDup (uniq_acc eqb seen l).
  Proof.
    revert seen; induction l as [|y t IH]; simpl; intro seen; [constructor|].
    destruct (mem eqb y seen); auto. constructor; auto.
    rewrite uniq_acc_In. simpl. tauto.
  Qed.
  Lemma uniq_NoDup l : NoDup (uniq eqb l).
  Proof. apply uniq_acc_NoDup. Qed.

  Lemma uniq_acc_ext s s' l :
    (forall z, In z s <-> In z s') -> uniq_acc eqb s l = uniq_acc eqb s' l.
  Proof.
    revert s s'; induction l as [|z l IH]; simpl; intros s s' Hs; auto.
    assert (mem eqb z s = mem eqb z s') as ->.
    { destruct (mem eqb z s) eqn:E, (mem eqb z s') eqn:E'; auto.
      - apply mem_In in E. apply mem_false in E'. now apply Hs in E.
      - apply mem_In in E'. apply mem_false in E. now apply Hs in E'. }
    rewrite (IH _ s' Hs), (IH (z :: s) (z :: s')); auto.
    intro w; simpl; rewrite Hs; tauto.
  Qed.

  Lemma uniq_acc_app seen l m :
    (uniq_acc eqb seen (l ++ m)
    = uniq_acc eqb seen l ++ uniq_acc eqb (l ++ seen) m)%list.
  Proof.
    revert seen; induction l as [|y t IH]; simpl; intro seen; auto.
    destruct (mem eqb y seen) eqn:E.
    - rewrite IH. f_equal. apply uniq_acc_ext. intro z. simpl. rewrite !in_app_iff.
      apply mem_In in E. split; [tauto|]. intros [->|?]; auto.
    - simpl. rewrite IH. do 2 f_equal. apply uniq_acc_ext. intro z. simpl. rewrite !in_app_iff.
      simpl. tauto.
  Qed.

  Lemma uniq_dedup_of l : dedup_of l (uniq eqb l).
  Proof.
    induction l as [|x l IH] using rev_ind; [constructor|].
    unfold uniq in *. rewrite uniq_acc_app. simpl. rewrite app_nil_r.
    destruct (mem eqb x l) eqn:E.
    - apply mem_In in E. rewrite app_nil_r. now constructor.
    - apply mem_false in E. now constructor.
  Qed.
End UniqFacts.

Lemma NoDup_same_perm {A} (l l' : list A) :
  NoDup l -> NoDup l' -> (forall x, In x l <-> In x l') -> Permutation l l'.
Proof. intros; now apply NoDup_Permutation. Qed.

(** ** filter_map *)
Lemma filter_map_In {A B} (f : A -> option B) l y :
  In y (filter_map f l) <-> exists x, In x l /\ f x = Some y.
Proof.
  induction l as [|x t IH]; simpl.
  - split; [tauto|intros (?&[]&_)].
  - destruct (f x) eqn:E; simpl; rewrite IH; split.
    + intros [->|(z&?&?)]; eauto.
    + intros (z&[->|?]&?); [left; congruence|right; eauto].
    + intros (z&?&?); eauto.
    + intros (z&[->|?]&?); [congruence|eauto].
Qed.
Lemma filter_map_app {A B} (f : A -> option B) l l' :
  filter_map f (l ++ l')%list = (filter_map f l ++ filter_map f l')%list.
Proof. induction l as [|x t IH]; simpl; auto. rewrite IH. destruct (f x); auto. Qed.
Lemma filter_map_ext {A B} (f g : A -> option B) l :
  (forall x, In x l -> f x = g x) -> filter_map f l = filter_map g l.
Proof.
  induction l as [|x t IH]; simpl; intro H; auto.
  rewrite (H x) by auto. rewrite IH; auto.
Qed.
Lemma filter_map_perm {A B} (f : A -> option B) l l' :
  Permutation l l' -> Permutation (filter_map f l) (filter_map f l').
Proof.
  induction 1; simpl; auto.
  - destruct (f x); auto.
  - destruct (f x), (f y); auto. apply perm_swap.
  - etransitivity; eauto.
Qed.

(** ** first_such *)
Lemma find_first_such {A} (f : A -> bool) l x :
  find f l = Some x <-> first_such (fun y => f y = true) l x.
Proof.
  unfold first_such. induction l as [|y t IH]; simpl.
  - split; [discriminate|]. intros (l1&l2&H&_). destruct l1; discriminate.
  - destruct (f y) eqn:E.
    + split.
      * intro H; injection H; intros <-. exists [], t. simpl; repeat split; auto.
      * intros (l1&l2&H&Hx&Hn). destruct l1 as [|z l1]; simpl in H; injection H; intros; subst; auto.
        exfalso; apply (Hn z); simpl; auto.
    + rewrite IH. split.
      * intros (l1&l2&->&Hx&Hn). exists (y :: l1), l2. simpl; repeat split; auto.
        intros z [<-|Hz]; [congruence|auto].
      * intros (l1&l2&H&Hx&Hn). destruct l1 as [|z l1]; simpl in H; injection H; intros; subst.
        -- congruence.
        -- exists l1, l2. repeat split; auto. intros; apply Hn; simpl; auto.
Qed.
Lemma find_None_iff {A} (f : A -> bool) l :
  find f l = None <-> forall x, In x l -> f x = false.
Proof.
  induction l as [|y t IH]; simpl; [tauto|].
  destruct (f y) eqn:E.
  - split; [discriminate|]. intro H. rewrite (H y) in E; auto; discriminate.
  - rewrite IH. split; [intros H x [<-|]; auto|auto].
Qed.
Lemma first_such_iff {A} (P Q : A -> Prop) l x :
  (forall y, In y l -> (P y <-> Q y)) -> first_such P l x -> first_such Q l x.
Proof.
  intros H (l1&l2&->&Hx&Hn). exists l1, l2. repeat split; auto.
  - apply H; auto. apply in_app_iff; simpl; auto.
  - intros y Hy Qy. apply (Hn y Hy). apply H; auto. apply in_app_iff; auto.
Qed.
Lemma first_such_unique {A} (P : A -> Prop) l x y :
  first_such P l x -> first_such P l y -> x = y.
Proof.
  intros (a&b&->&Hx&Hn) (a'&b'&E&Hy&Hn').
  revert a' E Hn'; induction a as [|z a IH]; intros [|z' a'] E Hn'; simpl in *;
    injection E; intros E2 E1.
  - auto.
  - exfalso. apply (Hn' z'); auto. rewrite <- E1. exact Hx.
  - exfalso. apply (Hn z); auto. rewrite E1. exact Hy.
  - apply (IH (fun w Hw => Hn w (or_intror Hw)) a'); auto.
Qed.
