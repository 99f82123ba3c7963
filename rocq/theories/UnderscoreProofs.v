(** Invariants of concurrent folder creation. *)
From Coq Require Import Strings.String Strings.Ascii Lists.List Bool Arith Lia.
From Verif Require Import GoBase GoSpec GoFacts LabelSpec LabelProofs WebProofs UnderscoreModel UnderscoreSpec.
Import ListNotations.
Open Scope string_scope.

Lemma nth_replace {A} (a : list A) x x' b i y : nth_error (a ++ x' :: b) i = Some y ->
  i = length a /\ y = x' \/ i <> length a /\ nth_error (a ++ x :: b) i = Some y.
Proof.
  intros H. destruct (Nat.eq_dec i (length a)) as [->|Hi].
  - left. rewrite nth_error_app2, Nat.sub_diag in H by lia. cbn in H. split; congruence.
  - right. split; auto. destruct (Nat.lt_ge_cases i (length a)).
    + rewrite nth_error_app1 in * by lia. auto.
    + rewrite nth_error_app2 in * by lia. destruct (i - length a) eqn:E; [lia|]. auto.
Qed.
Lemma nth_replace_at {A} (a : list A) x b : nth_error (a ++ x :: b) (length a) = Some x.
Proof. rewrite nth_error_app2, Nat.sub_diag by lia. reflexivity. Qed.
Lemma nth_replace_other {A} (a : list A) x x' b i y : i <> length a ->
  nth_error (a ++ x :: b) i = Some y -> nth_error (a ++ x' :: b) i = Some y.
Proof.
  intros Hi. destruct (Nat.lt_ge_cases i (length a)).
  - rewrite !nth_error_app1 by lia. auto.
  - rewrite !nth_error_app2 by lia. destruct (i - length a) eqn:E; [lia|]. auto.
Qed.

Lemma sget_sset_eq {V} k (v : V) m : sget k (sset k v m) = Some v.
Proof. apply mget_mset_eq, seqP. Qed.
Lemma sget_sset_neq {V} k k' (v : V) m : k <> k' -> sget k' (sset k v m) = sget k' m.
Proof. intros H. rewrite (mget_mset String.eqb seqP). destruct (String.eqb_spec k k'); congruence. Qed.
Lemma sget_sset_present {V} k k' (v : V) m : (exists x, sget k' m = Some x) -> exists x, sget k' (sset k v m) = Some x.
Proof.
  intros [x H]. destruct (String.eqb_spec k k') as [<-|Hk]; [rewrite sget_sset_eq; eauto|rewrite sget_sset_neq; eauto].
Qed.

Lemma overwrite_nil w : overwrite w "" = w.
Proof. unfold overwrite. assert (E : forall n, sdrop n "" = "") by (intros []; reflexivity). rewrite E. apply app_nil_r'. Qed.

Definition own (p : point) : option string :=
  match p with
  | POpen id | PWrite id _ _ | PEnd (id, None) => Some id
  | _ => None
  end.

Section WithEnvironment.
  Variable configured : bool.
  Variable md5 : string -> string.
  Variable encode : underscore -> string.
  Variable decode : string -> res underscore.

  Definition cohere (fs : folders) (c : call) : Prop :=
    match cPoint c with
    | POpen id => sget id fs = Some None
    | PWrite id old w => old = "" /\ sget id fs = Some (Some w) /\ exists rest, encode (cUnderscore c) = w ++ rest
    | PEnd (id, None) => sget id fs = Some (Some (encode (cUnderscore c)))
    | PEnd (id, Some Exists) => exists x, sget id fs = Some x
    | PEnd (id, Some MkdirFailed) => id = "" \/ exists x, sget id fs = Some x
    | _ => True
    end.

  Definition keyed (c : call) : Prop :=
    cKey c <> "" ->
    match cPoint c with
    | PIdent => True
    | PStat id | PMkdir id | PRestat id | POpen id | PWrite id _ _ => id = md5 (cKey c)
    | PEnd (id, e) => id = md5 (cKey c) \/ id = "" /\ e <> None
    end.

  Lemma step_keyed c fs fs' c' : call_step configured md5 encode c fs fs' c' -> keyed c -> keyed c'.
  Proof.
    intros H HK Hk. assert (E : cKey c' = cKey c) by (destruct H; reflexivity). rewrite E in Hk. specialize (HK Hk). unfold keyed in *.
    destruct H; cbn; rewrite H in HK; auto; try (right; split; [auto|discriminate]); try (left; exact HK); try contradiction; auto.
  Qed.

  Lemma step_cohere c fs fs' c' : call_step configured md5 encode c fs fs' c' -> cohere fs c -> cohere fs' c'.
  Proof.
    intros H HC. unfold cohere in *.
    destruct H as [fs Hp|fs Hp|fs id Hp|fs id x Hp Hx|fs id x id' Hp Hx|fs id Hp Hx|fs id Hp|fs id Hp Hx|fs id Hp|fs id x Hp Hx|fs id Hp|fs id old Hp Hx|fs id Hp Hx|fs id Hp|fs id old w more rest Hp Hm He|fs id old w Hp|fs id old w Hp He];
      rewrite Hp in HC; cbn; auto.
    - eauto.
    - apply sget_sset_eq.
    - eauto.
    - congruence.
    - split; auto. split; [apply sget_sset_eq|]. exists (encode (cUnderscore c)). reflexivity.
    - destruct HC as (-> & Hs & _). rewrite overwrite_nil. split; auto. split; [apply sget_sset_eq|]. exists rest. now rewrite app_assoc'.
    - destruct HC as (_ & Hs & _). now rewrite He.
  Qed.

  Lemma step_change c fs fs' c' : call_step configured md5 encode c fs fs' c' ->
    fs' = fs \/ exists id v, fs' = sset id v fs /\ own (cPoint c') = Some id /\ (own (cPoint c) = Some id \/ sget id fs = None).
  Proof.
    intros H. destruct H as [fs Hp|fs Hp|fs id Hp|fs id x Hp Hx|fs id x id' Hp Hx|fs id Hp Hx|fs id Hp|fs id Hp Hx|fs id Hp|fs id x Hp Hx|fs id Hp|fs id old Hp Hx|fs id Hp Hx|fs id Hp|fs id old w more rest Hp Hm He|fs id old w Hp|fs id old w Hp He];
      auto; right; eexists; eexists; (split; [reflexivity|]); cbn; split; auto; left; rewrite Hp; reflexivity.
  Qed.

  Lemma step_own c fs fs' c' id : call_step configured md5 encode c fs fs' c' -> own (cPoint c') = Some id ->
    own (cPoint c) = Some id \/ sget id fs = None /\ exists v, fs' = sset id v fs.
  Proof.
    intros H. destruct H as [fs Hp|fs Hp|fs id0 Hp|fs id0 x Hp Hx|fs id0 x id' Hp Hx|fs id0 Hp Hx|fs id0 Hp|fs id0 Hp Hx|fs id0 Hp|fs id0 x Hp Hx|fs id0 Hp|fs id0 old Hp Hx|fs id0 Hp Hx|fs id0 Hp|fs id0 old w more rest Hp Hm He|fs id0 old w Hp|fs id0 old w Hp He];
      cbn; try discriminate; intros [= <-]; rewrite ?Hp; cbn; eauto.
  Qed.

  Lemma own_present fs c id : cohere fs c -> own (cPoint c) = Some id -> exists x, sget id fs = Some x.
  Proof.
    unfold cohere. destruct (cPoint c) as [|?|?|?|id0|id0 old w|[id0 [e|]]]; cbn; try discriminate; intros H [= <-]; eauto.
    destruct H as (_ & H & _). eauto.
  Qed.

  Variable fs0 : folders.

  (** A call that gave up after making the directory *)
  Definition gave_up (c : call) : Prop := cPoint c = PEnd ("", Some EncodeFailed).

  Record inv (s : system) : Prop := {
    inv_map : NoDup (map fst fs0) -> NoDup (map fst (files s));
    inv_old : forall id x, sget id fs0 = Some x -> sget id (files s) = Some x;
    inv_cohere : forall i c, nth_error (calls s) i = Some c -> cohere (files s) c;
    inv_keyed : forall i c, nth_error (calls s) i = Some c -> keyed c;
    inv_new : forall i c id, nth_error (calls s) i = Some c -> own (cPoint c) = Some id -> sget id fs0 = None;
    inv_own : forall i j c d id, nth_error (calls s) i = Some c -> nth_error (calls s) j = Some d ->
      own (cPoint c) = Some id -> own (cPoint d) = Some id -> i = j;
    inv_owned : forall id x, sget id (files s) = Some x -> sget id fs0 = None ->
      (exists i c, nth_error (calls s) i = Some c /\ own (cPoint c) = Some id) \/
      (exists i c, nth_error (calls s) i = Some c /\ gave_up c)
  }.

  Lemma cohere_change fs id v c : cohere fs c -> own (cPoint c) <> Some id -> cohere (sset id v fs) c.
  Proof.
    unfold cohere. destruct (cPoint c) as [|?|?|?|id0|id0 old w|[id0 [[]|]]]; cbn; auto; intros H Hn; eauto using sget_sset_present.
    - rewrite sget_sset_neq; auto; congruence.
    - rewrite sget_sset_neq; auto; congruence.
    - destruct H; eauto using sget_sset_present.
    - rewrite sget_sset_neq; auto; congruence.
  Qed.

  Lemma inv_step s s' : sys_step configured md5 encode s s' -> inv s -> inv s'.
  Proof.
    intros H I. destruct H as [fs cs key u|fs fs' a c c' b H].
    - assert (HN : forall i c, nth_error (cs ++ [Call key u PIdent]) i = Some c -> nth_error cs i = Some c \/ c = Call key u PIdent).
      { intros i c Hc. destruct (Nat.lt_ge_cases i (length cs)).
        - rewrite nth_error_app1 in Hc by lia. auto.
        - rewrite nth_error_app2 in Hc by lia. destruct (i - length cs) as [|[|]]; cbn in Hc; try discriminate. right. congruence. }
      destruct I as [I1 I2 I3 I4 I5 I6 I7]. cbn in *. constructor; cbn; auto.
      + intros i c Hc. apply HN in Hc as [Hc| ->]; [eauto|exact I].
      + intros i c Hc. apply HN in Hc as [Hc| ->]; [eauto|intros _; exact I].
      + intros i c id Hc Ho. apply HN in Hc as [Hc| ->]; [eauto|discriminate].
      + intros i j c d id Hc Hd Ho Ho'. apply HN in Hc as [Hc| ->], Hd as [Hd| ->]; try discriminate. eauto.
      + intros id x Hx Hn. destruct (I7 id x Hx Hn) as [(i & c & Hc & Ho)|(i & c & Hc & Ho)]; [left|right];
          exists i, c; split; auto; rewrite nth_error_app1; auto; apply nth_error_Some; congruence.
    - destruct I as [I1 I2 I3 I4 I5 I6 I7]. cbn in *.
      assert (Hc0 : nth_error (a ++ c :: b) (length a) = Some c) by apply nth_replace_at.
      assert (HCc : cohere fs c) by eauto.
      assert (HCc' : cohere fs' c') by eauto using step_cohere.
      assert (HCo : forall i d, i <> length a -> nth_error (a ++ c :: b) i = Some d -> cohere fs' d).
      { intros i d Hi Hd. destruct (step_change _ _ _ _ H) as [->|(id & v & -> & Ho & Hor)]; [eauto|].
        apply cohere_change; [eauto|]. intros Hod. destruct Hor as [Hor|Hor].
        - apply Hi. eapply I6; eauto.
        - destruct (own_present fs d id) as [x Hx]; eauto. congruence. }
      constructor; cbn.
      + intros Hn. destruct (step_change _ _ _ _ H) as [->|(id & v & -> & _)]; auto. apply sset_is_map. now apply I1.
      + intros id x Hx. destruct (step_change _ _ _ _ H) as [->|(id' & v & -> & Ho & Hor)]; auto.
        rewrite sget_sset_neq; auto. intros ->. destruct Hor as [Hor|Hor].
        * assert (sget id fs0 = None) by eauto. congruence.
        * apply I2 in Hx. congruence.
      + intros i d Hd. apply (nth_replace a c c' b) in Hd as [[-> ->]|[Hi Hd]]; eauto.
      + intros i d Hd. apply (nth_replace a c c' b) in Hd as [[-> ->]|[Hi Hd]]; eauto using step_keyed.
      + intros i d id Hd Ho. apply (nth_replace a c c' b) in Hd as [[-> ->]|[Hi Hd]]; eauto.
        destruct (step_own _ _ _ _ _ H Ho) as [Hown|[Hnone _]]; eauto.
        destruct (sget id fs0) eqn:E; auto. apply I2 in E. congruence.
      + intros i j d e id Hd He Ho Ho'.
        apply (nth_replace a c c' b) in Hd as [[-> ->]|[Hi Hd]], He as [[-> ->]|[Hj He]]; eauto.
        * destruct (step_own _ _ _ _ _ H Ho) as [Hown|[Hnone _]]; [eauto|].
          destruct (own_present fs e id) as [x Hx]; eauto. congruence.
        * destruct (step_own _ _ _ _ _ H Ho') as [Hown|[Hnone _]]; [eauto|].
          destruct (own_present fs d id) as [x Hx]; eauto. congruence.
      + intros id x Hx Hn.
        assert (Hcase : (own (cPoint c') = Some id) \/ (exists x, sget id fs = Some x)).
        { destruct (step_change _ _ _ _ H) as [->|(id' & v & -> & Ho & _)]; eauto.
          destruct (String.eqb_spec id' id) as [->|Hne]; auto. rewrite sget_sset_neq in Hx by auto. eauto. }
        destruct Hcase as [Ho|[y Hy]].
        * left. exists (length a), c'. split; auto. apply nth_replace_at.
        * destruct (I7 id y Hy Hn) as [(i & d & Hd & Ho)|(i & d & Hd & Ho)].
          -- destruct (Nat.eq_dec i (length a)) as [->|Hi].
             ++ assert (d = c) by congruence. subst d.
                destruct H; cbn; match goal with Hp : cPoint c = _ |- _ => rewrite Hp in Ho; cbn in Ho end; try discriminate;
                  try (left; eexists; eexists; split; [apply nth_replace_at|exact Ho]);
                  try (right; eexists; eexists; split; [apply nth_replace_at|reflexivity]).
             ++ left. exists i, d. split; auto. eapply nth_replace_other; eauto.
          -- right. destruct (Nat.eq_dec i (length a)) as [->|Hi].
             ++ assert (d = c) by congruence. subst d. unfold gave_up in Ho. destruct H; congruence.
             ++ exists i, d. split; auto. eapply nth_replace_other; eauto.
  Qed.

  Lemma inv_start : inv (System fs0 []).
  Proof.
    constructor; cbn; auto; try (intros [|]; discriminate).
    intros id x Hx Hn. congruence.
  Qed.
  Lemma inv_run s : sys_run configured md5 encode (System fs0 []) s -> inv s.
  Proof.
    remember (System fs0 []) as s0 eqn:E. induction 1; subst; [apply inv_start|eauto using inv_step].
  Qed.
End WithEnvironment.
