(** * GridProofs *)
From Verif Require Import GoBase GoSpec GoFacts AttrModel SchemaModel LinkbaseModel InstanceModel
  LabelModel LabelSpec LabelProofs PeriodModel PeriodProofs FactModel CatalogProofs GridModel GridSpec.
Local Open Scope string_scope.

(** ** IEEE order *)
Definition fkey (x : spec_float) : Z * Z * Z :=
  match x with
  | S754_infinity true => (-2, 0, 0)%Z
  | S754_finite true m e => (-1, - e, - Zpos m)%Z
  | S754_zero _ => (0, 0, 0)%Z
  | S754_finite false m e => (1, e, Zpos m)%Z
  | S754_infinity false => (2, 0, 0)%Z
  | S754_nan => (3, 0, 0)%Z
  end.
Definition zlt3 (a b : Z * Z * Z) : Prop :=
  let '(x, y, z) := a in let '(x', y', z') := b in
  (x < x' \/ x = x' /\ (y < y' \/ y = y' /\ z < z'))%Z.
Lemma SFltb_key x y : x <> S754_nan -> y <> S754_nan -> SFltb x y = true <-> zlt3 (fkey x) (fkey y).
Proof.
  intros Hx Hy. unfold SFltb.
  destruct x as [sx|sx| |sx mx ex], y as [sy|sy| |sy my ey]; try congruence;
    try destruct sx; try destruct sy; cbn [SFcompare fkey zlt3];
    try (split; [intro; try discriminate; lia|intro; try reflexivity; exfalso; lia]).
  all: destruct (ex ?= ey)%Z eqn:E;
    [apply Z.compare_eq_iff in E|rewrite Z.compare_lt_iff in E|rewrite Z.compare_gt_iff in E].
  all: try change (Pos.compare_cont Eq mx my) with (mx ?= my)%positive.
  all: try (destruct (mx ?= my)%positive eqn:F; cbn [CompOpp];
    [apply Pos.compare_eq in F|rewrite Pos.compare_lt_iff in F|rewrite Pos.compare_gt_iff in F]).
  all: split; [intro; try discriminate; lia|intro; try reflexivity; exfalso; lia].
Qed.
Lemma swo_float : swo (fun x => x <> S754_nan) SFltb.
Proof.
  split.
  - intros x y Hx Hy H. destruct (SFltb y x) eqn:E; auto. exfalso.
    rewrite SFltb_key in H, E by auto. destruct (fkey x) as [[a b] c], (fkey y) as [[a' b'] c'].
    cbn in *. lia.
  - intros x y z Hx Hy Hz H1 H2. destruct (SFltb z x) eqn:E; auto. exfalso.
    rewrite SFltb_key in E by auto.
    assert (~ zlt3 (fkey y) (fkey x)) by (rewrite <- SFltb_key by auto; congruence).
    assert (~ zlt3 (fkey z) (fkey y)) by (rewrite <- SFltb_key by auto; congruence).
    destruct (fkey x) as [[a b] c], (fkey y) as [[a' b'] c'], (fkey z) as [[a'' b''] c''].
    cbn in *. lia.
Qed.

(** ** Lists and loops *)
Lemma find_first_such {A} (p : A -> bool) (P : A -> Prop) l x :
  (forall y, p y = true <-> P y) -> find p l = Some x <-> first_such P l x.
Proof.
  intro HP. induction l as [|a l IH]; cbn [find].
  - split; [discriminate|]. intros (l1 & l2 & E & _). now destruct l1.
  - destruct (p a) eqn:E.
    + split.
      * intros [= <-]. exists [], l. repeat split; auto. now apply HP.
      * intros (l1 & l2 & E' & Hx & Hn). destruct l1 as [|b l1]; injection E' as -> ->; auto.
        exfalso. apply (Hn b); [now left|]. now apply HP.
    + rewrite IH. split.
      * intros (l1 & l2 & -> & Hx & Hn). exists (a :: l1), l2. repeat split; auto.
        intros y [<-|Hy]; auto. rewrite <- HP. congruence.
      * intros (l1 & l2 & E' & Hx & Hn). destruct l1 as [|b l1]; injection E' as -> ->.
        -- apply HP in Hx. congruence.
        -- exists l1, l2. repeat split; auto. intros y Hy. apply Hn. now right.
Qed.
Lemma find_none_iff {A} (p : A -> bool) (P : A -> Prop) l :
  (forall y, p y = true <-> P y) -> find p l = None <-> forall y, In y l -> ~ P y.
Proof.
  intro HP. induction l as [|a l IH]; cbn [find In].
  - split; auto.
  - destruct (p a) eqn:E.
    + split; [discriminate|]. intro H. exfalso. apply (H a); auto. now apply HP.
    + rewrite IH. split.
      * intros H y [<-|Hy]; auto. rewrite <- HP. congruence.
      * intros H y Hy. apply H. now right.
Qed.

Lemma foldM_app {A B} (f : A -> B -> res A) l l' a :
  foldM f (l ++ l')%list a = bind (foldM f l a) (foldM f l').
Proof.
  revert a. induction l as [|x l IH]; intro a; cbn; auto. destruct (f a x); cbn; auto.
Qed.
Lemma foldM_nested {A B C} (f : B -> A -> C -> res A) bs cs a :
  foldM (fun a b => foldM (f b) cs a) bs a =
  foldM (fun a bc => f (fst bc) a (snd bc)) (flat_map (fun b => map (pair b) cs) bs) a.
Proof.
  revert a. induction bs as [|b bs IH]; intro a; cbn [foldM flat_map]; auto.
  rewrite foldM_app.
  assert (E : forall a, foldM (f b) cs a = foldM (fun a bc => f (fst bc) a (snd bc)) (map (pair b) cs) a).
  { clear. induction cs as [|c cs IH]; intro a; cbn; auto. destruct (f b a c); cbn; auto. }
  rewrite <- E. destruct (foldM (f b) cs a); cbn; auto.
Qed.
Lemma mapM_Ok {A B} (f : A -> res B) l r : mapM f l = Ok r <-> Forall2 (fun x y => f x = Ok y) l r.
Proof.
  revert r. induction l as [|x l IH]; intro r; cbn [mapM].
  - split; [intros [= <-]; constructor|]. inversion 1; auto.
  - destruct (f x) eqn:E; cbn [bind].
    + destruct (mapM f l) eqn:E'; cbn [bind].
      * split; [intros [= <-]; constructor; auto; now apply IH|].
        inversion 1; subst. apply IH in H4. congruence.
      * split; [discriminate|]. inversion 1; subst. apply IH in H4. congruence.
      * split; [discriminate|]. inversion 1; subst. apply IH in H4. congruence.
    + split; [discriminate|]. inversion 1; subst. congruence.
    + split; [discriminate|]. inversion 1; subst. congruence.
Qed.
Lemma mapM_exists {A B} (f : A -> res B) l :
  (forall x, In x l -> exists y, f x = Ok y) -> exists r, mapM f l = Ok r.
Proof.
  induction l as [|x l IH]; intro H; cbn [mapM]; eauto.
  destruct (H x (or_introl eq_refl)) as [y ->]. destruct IH as [r ->]; [intros; apply H; now right|].
  cbn. eauto.
Qed.
Lemma mapM_panic {A B} (f : A -> res B) l :
  (forall x m, In x l -> f x <> Err m) ->
  mapM f l = Panic <-> exists x, In x l /\ f x = Panic.
Proof.
  induction l as [|x l IH]; intro H; cbn [mapM In].
  - split; [discriminate|]. now intros (y & [] & _).
  - destruct (f x) eqn:E; cbn [bind].
    + assert (E' : (do ys <- mapM f l; Ok (a :: ys)) = Panic <-> mapM f l = Panic).
      { destruct (mapM f l); cbn; split; congruence. }
      rewrite E', IH by (intros; apply H; now right).
      split; [intros (y & Hy & E2); eauto|]. intros (y & [<-|Hy] & E2); [congruence|eauto].
    + exfalso. eapply H; [now left|]; eauto.
    + split; eauto.
Qed.

Lemma Forall2_weaken {A B} (P Q : A -> B -> Prop) l l' :
  (forall x y, P x y -> Q x y) -> Forall2 P l l' -> Forall2 Q l l'.
Proof. intros H F. induction F; constructor; auto. Qed.

(** ** Contexts *)
Section ContextFacts.
  Variable tree : list arc -> string -> rarc.
  Variable lbl : string -> list (string * list (string * string)).
  Variable concept_of : string -> option concept.
  Variable typed_order : context -> typed_member -> list (string * string).
  Notation gcm := (get_contextual_members tree lbl typed_order).
  Definition mk_col (c : context) : relevant_context * contextual :=
    (RelevantContext (ctxID c) (period_string c) (cxMembers (gcm c)), gcm c).

  Lemma get_context_first i f c :
    get_context i (fContextRef f) = Some c <-> refers_to i f c.
  Proof. apply find_first_such. intro y. apply String.eqb_eq. Qed.
  Lemma get_context_id i ref c : get_context i ref = Some c -> ctxID c = ref.
  Proof. intro H. apply find_some in H. destruct H as [_ H]. now apply String.eqb_eq. Qed.
  Lemma get_context_none i ref :
    get_context i ref = None <-> forall c, In c (iContexts i) -> ctxID c <> ref.
  Proof. apply (find_none_iff _ (fun c => ctxID c = ref)). intro y. apply String.eqb_eq. Qed.

  Section OneInstance.
    Variables (subject : string) (i : instance).
    Notation step := (fun st hf => rc_fact tree lbl typed_order subject i (fst hf) st (snd hf)).
    Definition hit (hf : string * fact) (c : context) : Prop :=
      fst hf = fHref (snd hf) /\ get_context i (fContextRef (snd hf)) = Some c /\
      ctxScheme c ++ "/" ++ ctxIdentifier c = subject.
    Definition inv (done : list (string * fact)) (st : rc_state) : Prop :=
      exists cs, snd st = map mk_col cs /\ fst st = rev (map ctxID cs) /\ NoDup (map ctxID cs) /\
        forall c, In c cs <-> exists hf, In hf done /\ hit hf c.
    Definition lost (hf : string * fact) : Prop :=
      fst hf = fHref (snd hf) /\ get_context i (fContextRef (snd hf)) = None.

    Lemma step_inv done st hf :
      inv done st ->
      (lost hf /\ step st hf = Panic) \/ (~ lost hf /\ exists st', step st hf = Ok st' /\ inv (done ++ [hf]) st').
    Proof.
      intros (cs & E1 & E2 & ND & Hcs). unfold rc_fact.
      assert (Fcs : forall c, In c cs -> get_context i (ctxID c) = Some c).
      { intros c Hc. apply Hcs in Hc. destruct Hc as (hf' & _ & _ & G & _).
        rewrite (get_context_id _ _ _ G). exact G. }
      destruct (existsb _ _) eqn:EX.
      - apply existsb_exists in EX. destruct EX as (r & Hr & Er). apply String.eqb_eq in Er. subst r.
        rewrite E2, <- in_rev, in_map_iff in Hr. destruct Hr as (c & Ec & Hc).
        right. split.
        + intros [_ L]. rewrite <- Ec, (Fcs c Hc) in L. discriminate.
        + exists st. split; auto. exists cs. split; [exact E1|]. split; [exact E2|]. split; [exact ND|].
          intro d. rewrite Hcs. setoid_rewrite in_app_iff. split.
          * intros (h & Hh & Hit). exists h. auto.
          * intros (h & [Hh|[<-|[]]] & Hit); [exists h; auto|].
            destruct Hit as (E & G & S). rewrite <- Ec, (Fcs c Hc) in G. injection G as <-.
            now apply Hcs.
      - assert (EX' : ~ In (fContextRef (snd hf)) (map ctxID cs)).
        { intro H. enough (existsb (String.eqb (fContextRef (snd hf))) (fst st) = true) by congruence.
          apply existsb_exists. eexists. split; [rewrite E2, <- in_rev; exact H|apply String.eqb_refl]. }
        destruct (String.eqb_spec (fst hf) (fHref (snd hf))) as [EH|NH].
        + destruct (get_context i (fContextRef (snd hf))) as [c|] eqn:G.
          * right. split; [intros [_ L]; congruence|].
            destruct (String.eqb_spec (ctxScheme c ++ "/" ++ ctxIdentifier c) subject) as [ES|NS].
            -- eexists. split; [reflexivity|]. exists (cs ++ [c])%list. cbn [fst snd].
               rewrite !map_app, E1. split; [reflexivity|]. split.
               { rewrite E2, rev_app_distr. cbn. now rewrite (get_context_id _ _ _ G). }
               split.
               { apply Permutation_NoDup with (l := ctxID c :: map ctxID cs).
                 - cbn. apply Permutation_cons_append.
                 - constructor; auto. now rewrite (get_context_id _ _ _ G). }
               intro d. setoid_rewrite in_app_iff. rewrite Hcs. split.
               ++ intros [(h & Hh & Hit)|[<-|[]]]; [exists h; auto|].
                  exists hf. split; [right; now left|]. unfold hit. auto.
               ++ intros (h & [Hh|[<-|[]]] & Hit); [left; exists h; auto|].
                  destruct Hit as (_ & G' & _). rewrite G in G'. injection G' as <-. right. now left.
            -- exists st. split; auto. exists cs. split; [exact E1|]. split; [exact E2|]. split; [exact ND|].
               intro d. rewrite Hcs. setoid_rewrite in_app_iff. split.
               ++ intros (h & Hh & Hit). exists h. auto.
               ++ intros (h & [Hh|[<-|[]]] & Hit); [exists h; auto|].
                  destruct Hit as (_ & G' & S). rewrite G in G'. injection G' as <-. contradiction.
          * left. split; [split; auto|reflexivity].
        + right. split; [intros [L _]; contradiction|].
          exists st. split; auto. exists cs. split; [exact E1|]. split; [exact E2|]. split; [exact ND|].
          intro d. rewrite Hcs. setoid_rewrite in_app_iff. split.
          * intros (h & Hh & Hit). exists h. auto.
          * intros (h & [Hh|[<-|[]]] & Hit); [exists h; auto|]. destruct Hit as [? _]. contradiction.
    Qed.

    Lemma fold_inv l done st :
      inv done st ->
      ((exists hf, In hf l /\ lost hf) /\ foldM step l st = Panic) \/
      ((forall hf, In hf l -> ~ lost hf) /\ exists st', foldM step l st = Ok st' /\ inv (done ++ l) st').
    Proof.
      revert done st. induction l as [|hf l IH]; intros done st I; cbn [foldM].
      - right. split; [intros ? []|]. exists st. now rewrite app_nil_r.
      - destruct (step_inv done st hf I) as [(L & ->)|(NL & st1 & -> & I1)]; cbn [bind].
        + left. split; auto. exists hf. split; auto. now left.
        + destruct (IH _ _ I1) as [((h & Hh & L) & E)|(NL' & st2 & E & I2)].
          * left. split; auto. exists h. split; auto. now right.
          * right. split.
            -- intros h [<-|Hh]; auto.
            -- exists st2. split; auto. now rewrite <- app_assoc in I2.
    Qed.
  End OneInstance.

  Lemma in_pairs (hrefs : list string) (facts : list fact) h f :
    In (h, f) (flat_map (fun b => map (pair b) facts) hrefs) <-> In h hrefs /\ In f facts.
  Proof.
    rewrite in_flat_map. setoid_rewrite in_map_iff. split.
    - intros (x & Hx & y & [= -> ->] & Hy). auto.
    - intros [H1 H2]. exists h. split; auto. exists f. auto.
  Qed.
  Lemma in_factual hrefs h :
    In h (factual_hrefs concept_of hrefs) <-> In h hrefs /\ reportable concept_of h.
  Proof.
    unfold factual_hrefs, reportable. rewrite filter_In.
    split; intros [H1 H2]; split; auto.
    - destruct (concept_of h) as [c|]; [|discriminate]. exists c. split; auto. now apply negb_true_iff.
    - destruct H2 as (k & -> & ->). reflexivity.
  Qed.

  Lemma reported_hit subject i hrefs c :
    reported_in concept_of i subject hrefs c <->
    exists hf, In hf (flat_map (fun b => map (pair b) (iFacts i)) (factual_hrefs concept_of hrefs)) /\
               hit subject i hf c.
  Proof.
    unfold reported_in, hit. split.
    - intros (f & H1 & H2 & H3 & H4 & ->). exists (fHref f, f). split.
      + apply in_pairs. split; auto. apply in_factual. auto.
      + cbn. repeat split; auto. now apply get_context_first.
    - intros ([h f] & H & E & G & S). cbn in *. subst h. apply in_pairs in H. destruct H as [H1 H2].
      apply in_factual in H1. exists f. repeat split; try tauto; auto. now apply get_context_first.
  Qed.
  Lemma dangling_lost i hrefs :
    dangling concept_of i hrefs <->
    exists hf, In hf (flat_map (fun b => map (pair b) (iFacts i)) (factual_hrefs concept_of hrefs)) /\
               lost i hf.
  Proof.
    unfold dangling, lost. split.
    - intros (f & H1 & H2 & H3 & H4). exists (fHref f, f). split.
      + apply in_pairs. split; auto. apply in_factual. auto.
      + cbn. split; auto. now apply get_context_none.
    - intros ([h f] & H & E & G). cbn in *. subst h. apply in_pairs in H. destruct H as [H1 H2].
      apply in_factual in H1. exists f. repeat split; try tauto; auto. now apply get_context_none.
  Qed.

  Lemma rc_instance_spec subject hrefs i :
    (dangling concept_of i hrefs /\
     rc_instance tree lbl typed_order subject (factual_hrefs concept_of hrefs) i = Panic) \/
    (~ dangling concept_of i hrefs /\ exists cs,
     rc_instance tree lbl typed_order subject (factual_hrefs concept_of hrefs) i = Ok (map mk_col cs) /\
     NoDup (map ctxID cs) /\ forall c, In c cs <-> reported_in concept_of i subject hrefs c).
  Proof.
    unfold rc_instance. rewrite (foldM_nested (fun h st f => rc_fact tree lbl typed_order subject i h st f)).
    assert (I0 : inv subject i [] ([], [])).
    { exists []. cbn. repeat split; auto; try constructor; try contradiction. now intros (? & [] & _). }
    rewrite dangling_lost.
    destruct (fold_inv subject i
      (flat_map (fun b => map (pair b) (iFacts i)) (factual_hrefs concept_of hrefs)) _ _ I0)
      as [(L & E)|(NL & st & E & (cs & E1 & E2 & ND & Hcs))].
    - left. split; auto. now rewrite E.
    - right. split; [intros (h & Hh & L); eapply NL; eauto|].
      exists cs. rewrite E. cbn [bind]. rewrite E1. split; auto. split; auto.
      intro c. rewrite Hcs, reported_hit. reflexivity.
  Qed.
End ContextFacts.

(** ** Column order *)
Lemma key_le_refl a : key_le a a.
Proof. destruct a as [[n s] t]. right. split; auto. right. split; auto. now left. Qed.
Lemma key_le_total a b : key_le a b \/ key_le b a.
Proof.
  destruct a as [[n s] t], b as [[n' s'] t']; cbn.
  destruct (lt_eq_lt_dec n n') as [[L|E]|L]; try tauto. subst.
  destruct (slt_total s s') as [L|[E|L]]; [left; tauto| |right; tauto]. subst.
  destruct (slt_total t t') as [L|[E|L]]; subst; unfold sle; tauto.
Qed.
Lemma key_le_trans a b c : key_le a b -> key_le b c -> key_le a c.
Proof.
  destruct a as [[n s] t], b as [[n' s'] t'], c as [[m u] v]; cbn.
  intros [L|[-> [L|[-> L]]]] [L'|[-> [L'|[-> L']]]]; try (left; lia); right; split; auto.
  - left. eapply slt_trans; eauto.
  - right. split; auto. eapply sle_trans; eauto.
Qed.
Lemma key_le_antisym a b : key_le a b -> key_le b a -> a = b.
Proof.
  destruct a as [[n s] t], b as [[n' s'] t']; cbn.
  intros [L|[E [L|[E2 L]]]] [L'|[E' [L'|[E2' L']]]]; try (exfalso; lia); subst.
  - exfalso. eapply slt_irrefl, slt_trans; eauto.
  - exfalso. eapply slt_irrefl; eauto.
  - exfalso. eapply slt_irrefl; eauto.
  - f_equal. now apply sle_antisym.
Qed.

Lemma member_less_key a b :
  one_kind a -> one_kind b -> member_less a b = false <-> key_le (member_key b) (member_key a).
Proof.
  assert (NS : forall s : string, ~ slt s s) by exact slt_irrefl.
  unfold one_kind, member_less, member_key.
  intros [(d & E1 & E2)|(d & E1 & E2)] [(e & F1 & F2)|(e & F1 & F2)]; rewrite ?E1, ?E2, ?F1, ?F2;
    destruct (rmIsSegment a), (rmIsSegment b); cbn [andb negb key_le];
    try (split; intro H; try discriminate H; try reflexivity; lia).
  - destruct (String.eqb_spec (lbHref d) (lbHref e)) as [E|N]; rewrite ltb_false_iff.
    + rewrite E. split; [intro; right; auto|]. intros [|[_ [H|[_ H]]]]; [lia| |auto]. now apply NS in H.
    + split; [intros [H|H]; [congruence|auto]|]. intros [|[_ [H|[H _]]]]; [lia|now right|congruence].
  - destruct (String.eqb_spec (lbHref d) (lbHref e)) as [E|N]; rewrite ltb_false_iff.
    + rewrite E. split; [intro; right; auto|]. intros [|[_ [H|[_ H]]]]; [lia| |auto]. now apply NS in H.
    + split; [intros [H|H]; [congruence|auto]|]. intros [|[_ [H|[H _]]]]; [lia|now right|congruence].
  - rewrite ltb_false_iff. split.
    + intros [->|H]; right; split; auto. right. split; auto. now left.
    + intros [|[_ [H|[H _]]]]; [lia|now right|now left].
  - rewrite ltb_false_iff. split.
    + intros [->|H]; right; split; auto. right. split; auto. now left.
    + intros [|[_ [H|[H _]]]]; [lia|now right|now left].
Qed.

Lemma heading_at r : at_lang (rcPeriod r) PureLabel = heading r.
Proof.
  unfold at_lang, heading. change PureLabel with "Unlabelled".
  induction (rcPeriod r) as [|[k v] l IH]; cbn [mget find fst]; auto.
  rewrite (String.eqb_sym k). destruct (String.eqb "Unlabelled" k); auto.
Qed.

Definition all_one_kind (r : relevant_context) : Prop := Forall one_kind (rcMembers r).

Lemma context_less_le x y :
  all_one_kind x -> all_one_kind y -> context_less x y = false <-> column_le y x.
Proof.
  unfold all_one_kind, context_less, column_le, first_le. rewrite !heading_at. intros Fx Fy.
  destruct (String.eqb_spec (heading x) (heading y)) as [E|N].
  - rewrite E. destruct (Nat.eqb_spec (length (rcMembers x)) (length (rcMembers y))) as [EL|NL].
    + rewrite EL.
      destruct (rcMembers x) as [|a u], (rcMembers y) as [|b v]; try discriminate EL.
      * split; [intros _; right; split; auto|]. intros _. apply ltb_false_iff. now left.
      * inversion Fx; inversion Fy; subst. rewrite member_less_key by auto. split.
        -- intro H. right. split; auto.
        -- intros [H|[_ [H|[_ H]]]]; auto; [now apply slt_irrefl in H|lia].
    + rewrite Nat.ltb_ge. split.
      * intro H. right. split; auto. left. lia.
      * intros [H|[_ [H|[H _]]]]; [now apply slt_irrefl in H|lia|lia].
  - rewrite ltb_false_iff. split.
    + intros [H|H]; [congruence|now left].
    + intros [H|[H _]]; [now right|congruence].
Qed.

Lemma column_le_total a b : column_le a b \/ column_le b a.
Proof.
  unfold column_le, first_le.
  destruct (slt_total (heading a) (heading b)) as [L|[E|L]]; try tauto. rewrite E.
  destruct (lt_eq_lt_dec (length (rcMembers a)) (length (rcMembers b))) as [[L|EL]|L];
    [tauto| |tauto].
  rewrite EL. destruct (rcMembers a) as [|x u], (rcMembers b) as [|y v]; try tauto.
  destruct (key_le_total (member_key x) (member_key y)); tauto.
Qed.
Lemma column_le_trans a b c : column_le a b -> column_le b c -> column_le a c.
Proof.
  unfold column_le, first_le. intros [L|[E H]] [L'|[E' H']].
  - left. eapply slt_trans; eauto.
  - left. now rewrite <- E'.
  - left. now rewrite E.
  - right. split; [congruence|].
    destruct H as [H|[EL H]], H' as [H'|[EL' H']]; try (left; lia).
    right. split; [congruence|].
    destruct (rcMembers a), (rcMembers b), (rcMembers c); try discriminate; auto.
    eapply key_le_trans; eauto.
Qed.
Lemma column_le_key a b : column_le a b -> column_le b a <-> column_key a = column_key b.
Proof.
  unfold column_le, first_le, column_key. intro H. split.
  - intro H'. destruct H as [L|[E [H|[EL H]]]], H' as [L'|[E' [H'|[EL' H']]]];
      try (exfalso; lia);
      try (exfalso; rewrite ?E, ?E' in *; try (eapply slt_irrefl; eassumption);
           eapply slt_irrefl, slt_trans; eassumption).
    rewrite E, EL. f_equal.
    destruct (rcMembers a), (rcMembers b); try discriminate; auto.
    cbn. f_equal. now apply key_le_antisym.
  - intros [= E EL EM]. right. split; auto. right. split; auto.
    destruct (rcMembers a), (rcMembers b); auto. cbn in EM. injection EM as ->. apply key_le_refl.
Qed.
Lemma key_column_le a b : column_key a = column_key b -> column_le a b.
Proof.
  unfold column_le, first_le, column_key. intros [= E EL EM]. right. split; auto. right. split; auto.
  destruct (rcMembers a), (rcMembers b); auto. cbn in EM. injection EM as ->. apply key_le_refl.
Qed.
Lemma swo_context : swo all_one_kind context_less.
Proof.
  split.
  - intros x y Px Py H. apply context_less_le; auto.
    destruct (column_le_total x y) as [L|L]; auto. apply context_less_le in L; auto. congruence.
  - intros x y z Px Py Pz H1 H2. apply context_less_le in H1, H2; auto. apply context_less_le; auto.
    eapply column_le_trans; eauto.
Qed.
Lemma sort_contexts_spec l :
  Forall all_one_kind l ->
  Permutation l (sort_contexts l) /\
  StronglySorted column_le (sort_contexts l) /\
  forall k, filter (fun c => if column_key_dec (column_key c) k then true else false) (sort_contexts l) =
            filter (fun c => if column_key_dec (column_key c) k then true else false) l.
Proof.
  intro F. destruct (isort_stably_sorted_on _ context_less l swo_context F) as (HP & HS & HT).
  assert (F' : Forall all_one_kind (isort context_less l)).
  { rewrite Forall_forall in F |- *. intros x Hx. apply F. now rewrite isort_in in Hx. }
  split; [exact HP|]. split.
  - unfold sort_contexts. clear HP HT. induction HS as [|x m HS IH HF]; constructor.
    + inversion F'; auto.
    + inversion F'; subst. rewrite Forall_forall in *. intros y Hy.
      apply context_less_le; auto.
  - intro k. unfold sort_contexts.
    destruct (in_dec (fun a b => column_key_dec a b) k (map column_key l)) as [Hk|Hk].
    + apply in_map_iff in Hk. destruct Hk as (x & <- & Hx).
      specialize (HT x Hx).
      assert (EQ : forall y, all_one_kind y ->
        (negb (context_less x y) && negb (context_less y x))%bool =
        (if column_key_dec (column_key y) (column_key x) then true else false)).
      { intros y Py. assert (Px : all_one_kind x) by (rewrite Forall_forall in F; auto).
        destruct (column_key_dec _ _) as [E|N].
        - apply andb_true_iff. rewrite !negb_true_iff, !context_less_le by auto.
          split; apply key_column_le; auto.
        - destruct (context_less x y) eqn:E1, (context_less y x) eqn:E2; auto.
          exfalso. apply N. apply context_less_le in E1, E2; auto. now apply column_le_key. }
      assert (EF : forall m, Forall all_one_kind m ->
        filter (fun y => (negb (context_less x y) && negb (context_less y x))%bool) m =
        filter (fun c => if column_key_dec (column_key c) (column_key x) then true else false) m).
      { intros m Fm. apply filter_ext_in. intros y Hy. apply EQ. rewrite Forall_forall in Fm; auto. }
      rewrite <- !EF; auto.
    + assert (EN : forall m, (forall y, In y m -> In y l) ->
        filter (fun c => if column_key_dec (column_key c) k then true else false) m = []).
      { intros m Hm. induction m as [|y m IH]; auto. cbn [filter].
        destruct (column_key_dec (column_key y) k) as [<-|N].
        - exfalso. apply Hk. apply in_map. apply Hm. now left.
        - apply IH. intros; apply Hm; now right. }
      rewrite !EN; auto. intros y Hy. now rewrite isort_in in Hy.
Qed.

(** ** The columns *)
Section ColumnFacts.
  Variable tree : list arc -> string -> rarc.
  Variable lbl : string -> list (string * list (string * string)).
  Variable concept_of : string -> option concept.
  Variable typed_order : context -> typed_member -> list (string * string).
  Hypothesis TO : forall c t, Permutation (typed_order c t) (tmMap t).
  Notation mk := (mk_col tree lbl typed_order).

  Lemma mk_explicit s l : Forall2 (shows_explicit lbl s) l (explicit_members lbl s l).
  Proof.
    induction l as [|e l IH]; cbn; constructor; auto. unfold shows_explicit. cbn. auto.
  Qed.
  Lemma mk_typed c l :
    exists gs, typed_members lbl typed_order c l = concat gs /\ Forall2 (shows_typed_group lbl) l gs.
  Proof.
    exists (map (fun t => get_typed_member lbl typed_order c t (Labelled (tmDimHref t) (lbl (tmDimHref t)))) l).
    split; [unfold typed_members; now rewrite flat_map_concat_map|].
    induction l as [|t l IH]; cbn [map]; constructor; auto.
    exists (typed_order c t). split; auto. unfold get_typed_member.
    induction (typed_order c t) as [|kv kvs IH']; cbn; constructor; auto. unfold shows_typed. cbn. auto.
  Qed.
  Lemma mk_col_column c : column_for lbl c (fst (mk c)).
  Proof.
    split; [reflexivity|]. split.
    - cbn [fst rcPeriod mk_col]. unfold period_string. eexists. split; [|reflexivity]. unfold period_of.
      destruct (ctxStart c) eqn:E1, (ctxEnd c) eqn:E2; cbn [nonempty andb]; try (right; split; auto; fail).
      left. repeat split; discriminate.
    - cbn [fst rcMembers mk_col cxMembers get_contextual_members].
      destruct (mk_typed c (dcTyped (ctxSegment c))) as (g1 & -> & H1).
      destruct (mk_typed c (dcTyped (ctxScenario c))) as (g2 & -> & H2).
      exists (explicit_members lbl true (dcExplicit (ctxSegment c))), g1,
             (explicit_members lbl false (dcExplicit (ctxScenario c))), g2.
      split; [reflexivity|]. split; [apply mk_explicit|]. split; [auto|]. split; [apply mk_explicit|auto].
  Qed.
  Lemma mk_col_kind c : all_one_kind (fst (mk c)).
  Proof.
    unfold all_one_kind. cbn [fst rcMembers mk_col cxMembers get_contextual_members].
    rewrite !Forall_app. repeat split; apply Forall_forall; intros m Hm.
    1, 3: unfold explicit_members in Hm; apply in_map_iff in Hm; destruct Hm as (e & <- & _);
      right; eexists; split; reflexivity.
    all: unfold typed_members in Hm; apply in_flat_map in Hm; destruct Hm as (t & _ & Hm);
      unfold get_typed_member in Hm; apply in_map_iff in Hm; destruct Hm as (kv & <- & _);
      left; eexists; split; reflexivity.
  Qed.

  Notation get := (get_relevant_contexts tree lbl concept_of typed_order).
  Lemma relevant_spec subject insts hrefs :
    ((exists i, In i insts /\ dangling concept_of i hrefs) /\ get subject insts hrefs = Panic) \/
    ((forall i, In i insts -> ~ dangling concept_of i hrefs) /\ exists css,
      Forall2 (fun i cs => NoDup (map ctxID cs) /\
                 forall c, In c cs <-> reported_in concept_of i subject hrefs c) insts css /\
      get subject insts hrefs =
        Ok (sort_contexts (map (fun c => fst (mk c)) (concat css)),
            flat_map (fun c => cxSegmentTrees (snd (mk c))) (concat css),
            flat_map (fun c => cxScenarioTrees (snd (mk c))) (concat css),
            flat_map (fun c => cxPacks (snd (mk c))) (concat css))).
  Proof.
    unfold get_relevant_contexts.
    destruct (factual_hrefs concept_of hrefs) as [|h0 t0] eqn:EF.
    - assert (N : forall h, In h hrefs -> ~ reportable concept_of h).
      { intros h Hh R. assert (I : In h (factual_hrefs concept_of hrefs)) by (apply in_factual; auto).
        rewrite EF in I. contradiction. }
      right. split.
      + intros i _ (f & _ & Hf & R & _). eapply N; eauto.
      + exists (map (fun _ => []) insts).
        assert (EC : forall A B (l : list A), concat (map (fun _ => @nil B) l) = []).
        { clear. induction l; cbn; auto. }
        rewrite EC. split; [|reflexivity].
        clear EF EC. induction insts as [|i insts IH]; cbn; constructor; auto. split; [constructor|].
        intro c. split; [intros []|]. intros (f & _ & Hf & R & _). eapply N; eauto.
    - rewrite <- EF. clear EF h0 t0.
      assert (SP := rc_instance_spec tree lbl concept_of typed_order subject hrefs).
      assert (D : (exists i, In i insts /\ dangling concept_of i hrefs) \/
                  (forall i, In i insts -> ~ dangling concept_of i hrefs)).
      { clear - SP. induction insts as [|i insts IH]; [right; intros ? []|].
        destruct (SP i) as [[D _]|[ND _]]; [left; exists i; split; auto; now left|].
        destruct IH as [(j & Hj & D)|N]; [left; exists j; split; auto; now right|].
        right. intros j [<-|Hj]; auto. }
      destruct D as [(i & Hi & D)|N].
      + left. split; [eauto|].
        enough (EP : mapM (rc_instance tree lbl typed_order subject (factual_hrefs concept_of hrefs)) insts = Panic)
          by now rewrite EP.
        apply mapM_panic.
        * intros j m _ E. destruct (SP j) as [[_ E']|[_ (cs & E' & _)]]; congruence.
        * exists i. split; auto. destruct (SP i) as [[_ E']|[ND _]]; [auto|contradiction].
      + right. split; auto.
        assert (EX : exists css, Forall2 (fun i cs =>
            rc_instance tree lbl typed_order subject (factual_hrefs concept_of hrefs) i = Ok (map mk cs) /\
            NoDup (map ctxID cs) /\ forall c, In c cs <-> reported_in concept_of i subject hrefs c) insts css).
        { clear - SP N. induction insts as [|i insts IH]; [exists []; constructor|].
          destruct IH as [css IH]; [intros; apply N; now right|].
          destruct (SP i) as [[D _]|[_ (cs & H)]]; [exfalso; eapply N; eauto; now left|].
          exists (cs :: css). constructor; auto. }
        destruct EX as [css F]. exists css. split.
        * eapply Forall2_weaken; [|exact F]. cbn. tauto.
        * assert (EM : mapM (rc_instance tree lbl typed_order subject (factual_hrefs concept_of hrefs)) insts
                       = Ok (map (map mk) css)).
          { apply mapM_Ok. clear - F. induction F as [|i cs insts css H F IH]; cbn; constructor; auto. apply H. }
          rewrite EM. cbn [bind]. rewrite <- concat_map, map_map, !flat_map_concat_map, !map_map. reflexivity.
  Qed.
  Lemma columns_one_kind cs : Forall all_one_kind (map (fun c => fst (mk c)) cs).
  Proof. apply Forall_forall. intros r Hr. apply in_map_iff in Hr. destruct Hr as (c & <- & _). apply mk_col_kind. Qed.
End ColumnFacts.

(** ** Merged trees *)
Fixpoint rarc_rect' (P : rarc -> Prop)
  (H : forall l o cs, Forall P cs -> P (RArc l o cs)) (r : rarc) : P r :=
  match r with
  | RArc l o cs => H l o cs ((fix go cs : Forall P cs :=
      match cs with [] => Forall_nil P | c :: t => Forall_cons c (rarc_rect' P H c) (go t) end) cs)
  end.

Lemma height_in c cs : In c cs -> height c <= forest_height cs.
Proof.
  unfold forest_height. induction cs as [|d cs IH]; intros []; subst; cbn [fold_right]; [lia|].
  apply IH in H. lia.
Qed.
Lemma forest_height_le cs n : (forall c, In c cs -> height c <= n) -> forest_height cs <= n.
Proof.
  induction cs as [|d cs IH]; intro H; cbn; [lia|].
  assert (height d <= n) by (apply H; now left). assert (forest_height cs <= n) by (apply IH; intros; apply H; now right).
  unfold forest_height in *. lia.
Qed.
Lemma height_children r : S (forest_height (ra_children r)) = height r.
Proof. destruct r as [l o cs]. reflexivity. Qed.

Lemma in_combine_seq {A} (l : list A) s k x :
  In (k, x) (combine (seq s (length l)) l) -> In x l.
Proof. intro H. eapply in_combine_r; eauto. Qed.
Lemma in_combine_seq_ex {A} (l : list A) s x :
  In x l -> exists k, In (k, x) (combine (seq s (length l)) l).
Proof.
  revert s. induction l as [|a l IH]; intros s []; subst; cbn.
  - eauto.
  - destruct (IH (S s) H) as [k Hk]. eauto.
Qed.

Lemma dedup_In l x : In x (dedup_strings l) <-> In x l.
Proof. unfold dedup_strings. apply uniq_In, seqP. Qed.
Lemma dedup_NoDup l : NoDup (dedup_strings l).
Proof. unfold dedup_strings. apply uniq_NoDup, seqP. Qed.

Definition merged (fuel k : nat) (children : list rarc) (l : string) : rarc :=
  RArc l (f64_of_nat k)
    (match flat_map ra_children (filter (fun c => String.eqb (ra_locator c) l) children) with
     | [] => [] | g => dedup_children fuel g k end).
Lemma dedup_children_S fuel children order :
  dedup_children (S fuel) children order =
  map (fun kl => merged fuel (fst kl) children (snd kl))
      (combine (seq (S order) (length (dedup_strings (map ra_locator children)))) (dedup_strings (map ra_locator children))).
Proof.
  cbn [dedup_children]. apply map_ext. intros [k l]. unfold merged. cbn [fst snd].
  destruct (flat_map _ _); reflexivity.
Qed.
Lemma dedup_locators fuel children order :
  map ra_locator (dedup_children (S fuel) children order) = dedup_strings (map ra_locator children).
Proof.
  rewrite dedup_children_S, map_map.
  generalize (dedup_strings (map ra_locator children)) as ls. generalize (S order) as s.
  intros s ls. revert s. induction ls as [|l ls IH]; intro s; cbn; auto. now rewrite IH.
Qed.
Lemma group_height n children l :
  forest_height children <= S n ->
  forest_height (flat_map ra_children (filter (fun c => String.eqb (ra_locator c) l) children)) <= n.
Proof.
  intro H. apply forest_height_le. intros g Hg. apply in_flat_map in Hg. destruct Hg as (c & Hc & Hg).
  apply filter_In in Hc. destruct Hc as [Hc _]. apply height_in in Hc. apply height_in in Hg.
  rewrite <- height_children in Hc. lia.
Qed.
Lemma path_in_app f p : path_in f p -> exists c, In c f /\ (p = [ra_locator c] \/ exists q, p = ra_locator c :: q /\ path_in (ra_children c) q).
Proof. inversion 1; subst; eauto 6. Qed.
Lemma path_in_flat fs p :
  path_in (flat_map ra_children fs) p <-> exists f, In f fs /\ path_in (ra_children f) p.
Proof.
  split.
  - inversion 1; subst; apply in_flat_map in H0; destruct H0 as (f & Hf & Hc); exists f; split; auto.
    + now constructor. + now apply path_down.
  - intros (f & Hf & Hp). inversion Hp; subst.
    + constructor. apply in_flat_map. eauto.
    + apply path_down; auto. apply in_flat_map. eauto.
Qed.
Lemma dedup_paths fuel children order p :
  forest_height children <= fuel ->
  path_in (dedup_children fuel children order) p <-> path_in children p.
Proof.
  revert children order p. induction fuel as [|n IH]; intros children order p HF.
  - destruct children as [|c cs]; [reflexivity|]. exfalso.
    assert (H := height_in c (c :: cs) (or_introl eq_refl)). rewrite <- height_children in H. lia.
  - assert (G : forall k l q, path_in (ra_children (merged n k children l)) q <->
        exists c, In c children /\ ra_locator c = l /\ path_in (ra_children c) q).
    { intros k l q. cbn [merged ra_children].
      set (g := flat_map ra_children (filter (fun c => String.eqb (ra_locator c) l) children)).
      assert (E : path_in g q <-> exists c, In c children /\ ra_locator c = l /\ path_in (ra_children c) q).
      { unfold g. rewrite path_in_flat. setoid_rewrite filter_In. setoid_rewrite String.eqb_eq.
        split; intros (c & H); exists c; tauto. }
      rewrite <- E. destruct g eqn:Eg.
      - reflexivity.
      - rewrite <- Eg. apply IH. unfold g. now apply group_height. }
    rewrite dedup_children_S. split.
    + intro H. apply path_in_app in H. destruct H as (c & Hc & Hp).
      apply in_map_iff in Hc. destruct Hc as ([k l] & <- & Hk). apply in_combine_seq in Hk.
      rewrite dedup_In, in_map_iff in Hk. destruct Hk as (d & El & Hd). cbn [fst snd] in Hp.
      change (ra_locator (merged n k children l)) with l in Hp.
      destruct Hp as [->|(q & -> & Hq)].
      * rewrite <- El. now constructor.
      * apply G in Hq. destruct Hq as (e & He & <- & Hq). now apply path_down.
    + intro H. apply path_in_app in H. destruct H as (c & Hc & Hp).
      assert (Hl : In (ra_locator c) (dedup_strings (map ra_locator children))).
      { apply dedup_In. now apply in_map. }
      apply (in_combine_seq_ex _ (S order)) in Hl. destruct Hl as [k Hk].
      assert (Hm : In (merged n k children (ra_locator c))
        (map (fun kl => merged n (fst kl) children (snd kl))
          (combine (seq (S order) (length (dedup_strings (map ra_locator children)))) (dedup_strings (map ra_locator children))))).
      { apply in_map_iff. exists (k, ra_locator c). auto. }
      change (ra_locator c) with (ra_locator (merged n k children (ra_locator c))) in Hp.
      destruct Hp as [->|(q & -> & Hq)].
      * now apply path_here.
      * apply path_down; auto. apply G. eauto.
Qed.
Lemma node_of_inv r n : node_of r n -> n = r \/ exists c, In c (ra_children r) /\ node_of c n.
Proof. inversion 1; subst; eauto. Qed.
Lemma dedup_distinct fuel children order :
  NoDup (map ra_locator (dedup_children fuel children order)) /\
  forall c n, In c (dedup_children fuel children order) -> node_of c n -> NoDup (map ra_locator (ra_children n)).
Proof.
  revert children order. induction fuel as [|f IH]; intros children order.
  - split; [constructor|]. intros c n [].
  - split; [rewrite dedup_locators; apply dedup_NoDup|].
    intros c n Hc Hn. rewrite dedup_children_S in Hc. apply in_map_iff in Hc.
    destruct Hc as ([k l] & <- & _). cbn [fst snd] in Hn.
    apply node_of_inv in Hn. cbn [merged ra_children] in Hn.
    destruct (flat_map ra_children (filter (fun c => String.eqb (ra_locator c) l) children)) eqn:E.
    + destruct Hn as [->|(d & [] & _)]. unfold merged. rewrite E. constructor.
    + destruct Hn as [->|(d & Hd & Hn)].
      * unfold merged. rewrite E. cbn [ra_children]. apply IH.
      * eapply IH; eauto.
Qed.
Lemma reduce_trees_eq trees :
  Forall nonempty_tree trees ->
  reduce_trees trees = RArc "" (f64_of_nat 0) (dedup_children (forest_height (flat_map ra_children trees)) (flat_map ra_children trees) 0).
Proof.
  intro F. unfold reduce_trees.
  replace (forallb _ trees) with true; [reflexivity|]. symmetry. apply forallb_forall.
  intros t Ht. rewrite Forall_forall in F. destruct (F t Ht) as [-> N].
  destruct (ra_children t); [congruence|reflexivity].
Qed.

(** ** Outlines *)
Lemma node_children r c : In c (ra_children r) -> node_of r c.
Proof. intro H. eapply node_below; eauto. apply node_self. Qed.
Lemma listing_eq r level :
  listing r level =
  flat_map (fun c => (ra_locator c, level) :: listing c (S level)) (isort by_order (ra_children r)).
Proof.
  destruct r as [l o cs]. cbn [listing ra_children].
  rewrite isort_map. rewrite !flat_map_concat_map, map_map. f_equal.
Qed.
Lemma pre_forest_flat level (f : rarc -> list (string * nat)) cs :
  Forall (fun c => preorder (S level) c (f c)) cs ->
  pre_forest level cs (flat_map (fun c => (ra_locator c, level) :: f c) cs).
Proof. induction 1; cbn [flat_map]; [constructor|]. rewrite <- app_comm_cons. now constructor. Qed.
Lemma swo_by_order : swo (fun r => ra_order r <> S754_nan) by_order.
Proof.
  destruct swo_float as [A B]. split.
  - intros x y Hx Hy. apply A; auto.
  - intros x y z Hx Hy Hz. apply B; auto.
Qed.
Lemma listing_preorder r : orders_are_numbers r -> forall level, preorder level r (listing r level).
Proof.
  induction r as [l o cs IH] using rarc_rect'. intros HN level.
  apply pre_node with (cs := isort by_order cs).
  - apply isort_stably_sorted_on with (P := fun r => ra_order r <> S754_nan).
    + apply swo_by_order.
    + apply Forall_forall. intros c Hc. apply HN. now apply node_children.
  - rewrite listing_eq. cbn [ra_children]. apply pre_forest_flat. apply Forall_forall.
    intros c Hc. rewrite isort_in in Hc. rewrite Forall_forall in IH. apply IH; auto.
    intros n Hn. apply HN. eapply node_below; eauto.
Qed.
Lemma Permutation_flat_map' {A B} (f : A -> list B) l l' : Permutation l l' -> Permutation (flat_map f l) (flat_map f l').
Proof. apply Permutation_flat_map. Qed.
Lemma flat_map_perm_ext {A B} (f g : A -> list B) l :
  Forall (fun x => Permutation (f x) (g x)) l -> Permutation (flat_map f l) (flat_map g l).
Proof. induction 1; cbn; auto. now apply Permutation_app. Qed.
Lemma listing_all r level : Permutation (map fst (listing r level)) (locators_below r).
Proof.
  revert level. induction r as [l o cs IH] using rarc_rect'. intro level.
  rewrite listing_eq. cbn [ra_children locators_below].
  rewrite <- (isort_perm by_order cs).
  rewrite !flat_map_concat_map, concat_map, map_map, <- !flat_map_concat_map.
  apply flat_map_perm_ext. rewrite Forall_forall in *. intros c Hc. cbn [map fst]. constructor. auto.
Qed.

(** ** The void quadrant *)
Lemma make_indents_eq dims typed l o cs paren level st :
  make_indents dims typed (RArc l o cs) paren level st =
  match (match fst st with
         | None => if nonempty l then match sget l dims with None => None | Some d => Some (Some d, snd st) end
                   else Some st
         | Some _ => Some st
         end) with
  | None => Ok (fst st, [])
  | Some (dim, ret) =>
      do ret1 <- (if Nat.eqb level 1 then
                    match dim with None => Panic | Some d => Ok (ret ++ [VoidCell paren level d None])%list end
                  else Ok ret);
      let go ret2 := run (map (fun c => make_indents dims typed c paren (S level)) (isort by_order cs)) (dim, ret2) in
      if Nat.ltb 1 level && nonempty l then
        match sget l typed with
        | None => Ok (dim, [])
        | Some t => match dim with None => Panic
                    | Some d => go (ret1 ++ [VoidCell paren level d (Some t)])%list end
        end
      else go ret1
  end.
Proof.
  cbn [make_indents]. rewrite isort_map, map_map. reflexivity.
Qed.

Section Indents.
  Variables dims typed : list (string * labelled).
  Variable D : labelled -> Prop.      (* the dimension of every row *)
  Variable T : labelled -> Prop.      (* the typed domain of every typed row *)
  Hypothesis HT : forall l t, sget l typed = Some t -> T t.
  Definition row_ok (v : void_cell) : Prop :=
    D (vcDimension v) /\ forall t, vcTypedDomain v = Some t -> T t.
  Definition dim_ok (o : option labelled) : Prop := forall d, o = Some d -> D d.
  Definition deep (f : vq_state -> res vq_state) : Prop :=
    forall d ret, D d -> exists rows, f (Some d, ret) = Ok (Some d, (ret ++ rows)%list) /\ Forall row_ok rows.
  Definition shallow (f : vq_state -> res vq_state) : Prop :=
    forall dim ret, dim_ok dim -> exists dim' rows,
      f (dim, ret) = Ok (dim', (ret ++ rows)%list) /\ dim_ok dim' /\ Forall row_ok rows.
  Lemma run_deep l : Forall deep l -> deep (run l).
  Proof.
    induction 1 as [|f l Hf Hl IH]; intros d ret Hd; cbn [run].
    - exists []. rewrite app_nil_r. auto.
    - destruct (Hf d ret Hd) as (r1 & -> & F1). cbn [bind].
      destruct (IH d (ret ++ r1)%list Hd) as (r2 & -> & F2).
      exists (r1 ++ r2)%list. rewrite app_assoc. split; auto. apply Forall_app; auto.
  Qed.
  Lemma run_shallow l : Forall shallow l -> shallow (run l).
  Proof.
    induction 1 as [|f l Hf Hl IH]; intros d ret Hd; cbn [run].
    - exists d, []. rewrite app_nil_r. auto.
    - destruct (Hf d ret Hd) as (d1 & r1 & -> & Hd1 & F1). cbn [bind].
      destruct (IH d1 (ret ++ r1)%list Hd1) as (d2 & r2 & -> & Hd2 & F2).
      exists d2, (r1 ++ r2)%list. rewrite app_assoc. split; auto. split; auto. apply Forall_app; auto.
  Qed.
  Lemma nonempty_iff s : nonempty s = true <-> s <> "".
  Proof. destruct s; cbn; split; congruence. Qed.

  Definition deep_tree (r : rarc) : Prop :=
    forall k, node_of r k -> ra_locator k <> "" /\ sget (ra_locator k) typed <> None.
  Lemma indents_deep paren r : deep_tree r -> forall level, 2 <= level -> deep (make_indents dims typed r paren level).
  Proof.
    induction r as [l o cs IH] using rarc_rect'. intros HG level HL d ret Hd.
    rewrite make_indents_eq. cbn [fst snd].
    destruct (Nat.eqb_spec level 1) as [->|_]; [lia|]. cbn [bind].
    destruct (HG _ (node_self _)) as [NE NT]. cbn [ra_locator] in NE, NT.
    apply nonempty_iff in NE. rewrite NE.
    replace (Nat.ltb 1 level) with true by (symmetry; apply Nat.ltb_lt; lia). cbn [andb].
    destruct (sget l typed) as [t|] eqn:ET; [|congruence]. cbv zeta.
    assert (RD : deep (run (map (fun c => make_indents dims typed c paren (S level)) (isort by_order cs)))).
    { apply run_deep. apply Forall_forall. intros f Hf. apply in_map_iff in Hf. destruct Hf as (c & <- & Hc).
      rewrite isort_in in Hc. rewrite Forall_forall in IH. apply IH; [auto| |lia].
      intros k Hk. apply HG. eapply node_below; eauto. }
    destruct (RD d (ret ++ [VoidCell paren level d (Some t)])%list Hd) as (rows & -> & F).
    exists (VoidCell paren level d (Some t) :: rows). rewrite <- app_assoc. split; auto.
    constructor; auto. split; auto. cbn. intros t' [= <-]. eauto.
  Qed.
  Definition shallow_tree (r : rarc) : Prop :=
    ra_locator r <> "" /\ (exists d, sget (ra_locator r) dims = Some d /\ D d) /\
    forall n, In n (ra_children r) -> deep_tree n.
  Lemma indents_shallow paren r : shallow_tree r -> shallow (make_indents dims typed r paren 1).
  Proof.
    destruct r as [l o cs]. intros (NE & (d0 & E0 & D0) & HD) dim ret Hd. cbn [ra_locator ra_children] in *.
    rewrite make_indents_eq. cbn [fst snd]. apply nonempty_iff in NE. rewrite NE, E0.
    assert (RD : deep (run (map (fun c => make_indents dims typed c paren 2) (isort by_order cs)))).
    { apply run_deep. apply Forall_forall. intros f Hf. apply in_map_iff in Hf. destruct Hf as (c & <- & Hc).
      rewrite isort_in in Hc. apply indents_deep; auto. }
    assert (G : forall d, D d -> exists dim' rows,
      run (map (fun c => make_indents dims typed c paren 2) (isort by_order cs))
          (Some d, (ret ++ [VoidCell paren 1 d None])%list) = Ok (dim', (ret ++ rows)%list) /\
      dim_ok dim' /\ Forall row_ok rows).
    { intros d Dd. destruct (RD d (ret ++ [VoidCell paren 1 d None])%list Dd) as (rows & -> & F).
      exists (Some d), (VoidCell paren 1 d None :: rows). rewrite <- app_assoc. split; auto.
      split; [intros d' [= <-]; auto|]. constructor; auto. split; auto. cbn. discriminate. }
    destruct dim as [d|]; cbn [Nat.eqb bind Nat.ltb Nat.leb andb]; cbv zeta; apply G; auto.
  Qed.
  Lemma indents_root paren o cs :
    Forall shallow_tree cs -> shallow (make_indents dims typed (RArc "" o cs) paren 0).
  Proof.
    intros F dim ret Hd. rewrite make_indents_eq. cbn [fst snd nonempty].
    assert (RS : shallow (run (map (fun c => make_indents dims typed c paren 1) (isort by_order cs)))).
    { apply run_shallow. apply Forall_forall. intros f Hf. apply in_map_iff in Hf. destruct Hf as (c & <- & Hc).
      rewrite isort_in in Hc. rewrite Forall_forall in F. apply indents_shallow; auto. }
    destruct (RS dim ret Hd) as (dim' & rows & E & H1 & H2).
    destruct dim as [d|]; cbn [Nat.eqb bind Nat.ltb Nat.leb andb]; cbv zeta; eauto.
  Qed.
End Indents.

Lemma path_nonnil f p : path_in f p -> p <> [].
Proof. inversion 1; discriminate. Qed.
Lemma path_node f p d : path_in f p -> exists c n, In c f /\ node_of c n /\ ra_locator n = last p d.
Proof.
  induction 1 as [f c Hc|f c p Hc Hp IH].
  - exists c, c. repeat split; auto. constructor.
  - destruct IH as (c' & n & Hc' & Hn & E). exists c, n. split; auto. split; [eapply node_below; eauto|].
    rewrite E. destruct p; [now apply path_nonnil in Hp|reflexivity].
Qed.
Lemma node_path c n f d : node_of c n -> In c f -> exists p, path_in f p /\ last p d = ra_locator n.
Proof.
  intro H. revert f. induction H as [r|r c n Hc Hn IH]; intros f Hf.
  - exists [ra_locator r]. split; [now constructor|reflexivity].
  - destruct (IH _ Hc) as (p & Hp & E). exists (ra_locator r :: p). split; [now apply path_down|].
    destruct p; [now apply path_nonnil in Hp|exact E].
Qed.

(** the merged tree has the same locators at the first level and below it *)
Lemma reduced_shape trees :
  Forall nonempty_tree trees ->
  ra_locator (reduce_trees trees) = "" /\
  (forall d, In d (ra_children (reduce_trees trees)) -> exists t d', In t trees /\ In d' (ra_children t) /\ ra_locator d = ra_locator d') /\
  (forall d n k, In d (ra_children (reduce_trees trees)) -> In n (ra_children d) -> node_of n k ->
     exists t d' n' k', In t trees /\ In d' (ra_children t) /\ In n' (ra_children d') /\ node_of n' k' /\
       ra_locator k = ra_locator k').
Proof.
  intro F. rewrite reduce_trees_eq by auto. cbn [ra_locator ra_children]. split; [reflexivity|].
  set (ch := flat_map ra_children trees).
  assert (P : forall p, path_in (dedup_children (forest_height ch) ch 0) p <-> path_in ch p)
    by (intro; now apply dedup_paths).
  split.
  - intros d Hd. assert (Hp : path_in ch [ra_locator d]) by (apply P; now constructor).
    apply path_in_app in Hp. destruct Hp as (c & Hc & [[= E]|(q & [= E <-] & Hq)]); [|inversion Hq].
    apply in_flat_map in Hc. destruct Hc as (t & Ht & Hc). exists t, c. auto.
  - intros d n k Hd Hn Hk. destruct (node_path _ _ (ra_children d) "" Hk Hn) as (p & Hp & E).
    assert (Hp' : path_in ch (ra_locator d :: p)) by (apply P; now apply path_down).
    inversion Hp' as [f c Hc E'|f c q Hc Hq E']; subst.
    + now apply path_nonnil in Hp.
    + apply in_flat_map in Hc. destruct Hc as (t & Ht & Hc).
      destruct (path_node _ _ "" Hq) as (n' & k' & Hn' & Hk' & E2).
      exists t, c, n', k'. repeat split; auto. congruence.
Qed.

(** maps filled by a loop *)
Lemma sget_sset' {V} k k2 (v : V) m : sget k2 (sset k v m) = if String.eqb k k2 then Some v else sget k2 m.
Proof.
  destruct (String.eqb_spec k k2) as [->|N].
  - apply mget_mset_eq, seqP.
  - apply mget_mset_neq; [apply seqP|auto].
Qed.
Definition fill {A V} (g : A -> option (string * V)) (l : list A) (m : list (string * V)) :=
  fold_left (fun m x => match g x with Some (k, v) => sset k v m | None => m end) l m.
Lemma fill_sound {A V} (g : A -> option (string * V)) l m k v :
  sget k (fill g l m) = Some v -> sget k m = Some v \/ exists x, In x l /\ g x = Some (k, v).
Proof.
  unfold fill. revert m. induction l as [|x l IH]; intros m H; cbn [fold_left] in H; auto.
  apply IH in H. destruct H as [H|(y & Hy & E)]; [|right; exists y; split; auto; now right].
  destruct (g x) as [[k' v']|] eqn:E; auto. rewrite sget_sset' in H.
  destruct (String.eqb_spec k' k) as [->|N]; auto. injection H as <-. right. exists x. split; auto. now left.
Qed.
Lemma fill_complete {A V} (g : A -> option (string * V)) l m k :
  (sget k m <> None \/ exists x v, In x l /\ g x = Some (k, v)) -> sget k (fill g l m) <> None.
Proof.
  unfold fill. revert m. induction l as [|x l IH]; intros m H; cbn [fold_left].
  - destruct H as [H|(x & v & [] & _)]; auto.
  - apply IH. destruct H as [H|(y & v & [<-|Hy] & E)].
    + left. destruct (g x) as [[k' v']|]; auto. rewrite sget_sset'. destruct (String.eqb k' k); congruence.
    + left. rewrite E, sget_sset', String.eqb_refl. discriminate.
    + right. eauto.
Qed.
Lemma dims_fill ms : all_dimension_map ms = fill (fun x => Some (lbHref (rmDimension x), rmDimension x)) ms [].
Proof. reflexivity. Qed.
Lemma typed_fill ms : all_typed_domain_map ms =
  fill (fun x => match rmTypedDomain x with Some t => Some (lbHref t, t) | None => None end) ms [].
Proof.
  unfold all_typed_domain_map, fill. generalize (@nil (string * labelled)) as m.
  induction ms as [|x ms IH]; intro m; cbn [fold_left]; auto. rewrite IH. now destruct (rmTypedDomain x).
Qed.
Lemma dims_sound ms k d :
  sget k (all_dimension_map ms) = Some d -> lbHref d = k /\ exists m, In m ms /\ rmDimension m = d.
Proof.
  rewrite dims_fill. intro H. apply fill_sound in H. destruct H as [H|(x & Hx & [= <- <-])]; [discriminate|eauto].
Qed.
Lemma dims_complete ms m : In m ms -> sget (lbHref (rmDimension m)) (all_dimension_map ms) <> None.
Proof. intro H. rewrite dims_fill. apply fill_complete. right. eauto. Qed.
Lemma typed_sound ms k t :
  sget k (all_typed_domain_map ms) = Some t -> lbHref t = k /\ exists m, In m ms /\ rmTypedDomain m = Some t.
Proof.
  rewrite typed_fill. intro H. apply fill_sound in H. destruct H as [H|(x & Hx & E)]; [discriminate|].
  destruct (rmTypedDomain x) as [t'|] eqn:ET; [|discriminate]. injection E as <- <-. eauto.
Qed.
Lemma typed_complete ms m t : In m ms -> rmTypedDomain m = Some t -> sget (lbHref t) (all_typed_domain_map ms) <> None.
Proof. intros H E. rewrite typed_fill. apply fill_complete. right. exists m, t. now rewrite E. Qed.

(** the explicit rows *)
Definition explicit_step (s : bool) (m : list (string * list (string * relevant_member))) (x : relevant_member) :=
  match rmExplicit x with
  | Some e => if Bool.eqb (rmIsSegment x) s then
      let d := lbHref (rmDimension x) in
      sset d (sset (lbHref e) x (match sget d m with Some v => v | None => [] end)) m
      else m
  | None => m
  end.
Lemma sset_nonnil {V} k (v : V) m : sset k v m <> [].
Proof. destruct m as [|[k2 v2] m]; cbn [mset]; [discriminate|]. destruct (String.eqb k2 k); discriminate. Qed.
Lemma explicit_map_spec s ms :
  (forall d v, sget d (explicit_dimension_map s ms) = Some v ->
     v <> [] /\ forall k x, In (k, x) v ->
       lbHref (rmDimension x) = d /\ In x ms /\ rmIsSegment x = s /\ exists e, rmExplicit x = Some e) /\
  (forall x e, In x ms -> rmExplicit x = Some e -> rmIsSegment x = s ->
     sget (lbHref (rmDimension x)) (explicit_dimension_map s ms) <> None).
Proof.
  change (explicit_dimension_map s ms) with (fold_left (explicit_step s) ms []).
  induction ms as [|y ms IH] using rev_ind.
  - split; [discriminate|]. intros x e [].
  - rewrite fold_left_app. cbn [fold_left]. destruct IH as [IH1 IH2].
    set (m := fold_left (explicit_step s) ms []) in *.
    assert (W : forall (v : list (string * relevant_member)) d,
      (forall k x, In (k, x) v -> lbHref (rmDimension x) = d /\ In x ms /\ rmIsSegment x = s /\ exists e, rmExplicit x = Some e) ->
      (forall k x, In (k, x) v -> lbHref (rmDimension x) = d /\ In x (ms ++ [y])%list /\ rmIsSegment x = s /\ exists e, rmExplicit x = Some e)).
    { intros v d H k x Hx. destruct (H k x Hx) as (H1 & H2 & H3). split; auto. split; auto. apply in_or_app; auto. }
    unfold explicit_step. destruct (rmExplicit y) as [e|] eqn:EY.
    + destruct (Bool.eqb_spec (rmIsSegment y) s) as [ES|NS]; cbv zeta.
      * split.
        -- intros d v. rewrite sget_sset'. destruct (String.eqb_spec (lbHref (rmDimension y)) d) as [ED|ND].
           ++ intros [= <-]. split; [apply sset_nonnil|]. intros k x Hx. apply sset_In in Hx.
              destruct Hx as [[-> ->]|Hx].
              ** split; auto. split; [apply in_or_app; right; now left|]. eauto.
              ** destruct (sget (lbHref (rmDimension y)) m) as [v0|] eqn:E0; [|contradiction].
                 subst d. eapply W; eauto. now apply IH1.
           ++ intro H. destruct (IH1 d v H) as [H1 H2]. split; auto. now apply W.
        -- intros x e' Hx EX SX. rewrite sget_sset'.
           destruct (String.eqb_spec (lbHref (rmDimension y)) (lbHref (rmDimension x))) as [|N]; [discriminate|].
           apply in_app_or in Hx. destruct Hx as [Hx|[<-|[]]]; [eauto|congruence].
      * split.
        -- intros d v H. destruct (IH1 d v H) as [H1 H2]. split; auto. now apply W.
        -- intros x e' Hx EX SX. apply in_app_or in Hx. destruct Hx as [Hx|[<-|[]]]; [eauto|congruence].
    + split.
      * intros d v H. destruct (IH1 d v H) as [H1 H2]. split; auto. now apply W.
      * intros x e' Hx EX SX. apply in_app_or in Hx. destruct Hx as [Hx|[<-|[]]]; [eauto|congruence].
Qed.
Section Void.
  Variable member_order : list (string * relevant_member) -> list (string * relevant_member).
  Hypothesis MO : forall l, Permutation (member_order l) l.
  Definition explicit_rows (ms : list relevant_member) : list void_cell :=
    flat_map (fun h =>
      (explicit_row member_order (explicit_dimension_map true ms) h
       ++ explicit_row member_order (explicit_dimension_map false ms) h)%list)
    (isort String.ltb (map fst (all_dimension_map ms))).
  Lemma explicit_row_In s ms h v :
    In v (explicit_row member_order (explicit_dimension_map s ms) h) ->
    vcTypedDomain v = None /\ vcParenthesized v = false /\ vcIndentation v = 0 /\ lbHref (vcDimension v) = h /\
    exists m e, In m ms /\ rmExplicit m = Some e /\ rmDimension m = vcDimension v.
  Proof.
    destruct (explicit_map_spec s ms) as [H1 _]. unfold explicit_row.
    destruct (sget h (explicit_dimension_map s ms)) as [x|] eqn:E; [|contradiction].
    destruct (H1 _ _ E) as [_ H2]. assert (P := MO x). destruct (member_order x) as [|[k m] t]; [contradiction|].
    intros [<-|[]]. cbn. assert (Hk : In (k, m) x) by (eapply Permutation_in; [exact P|now left]).
    destruct (H2 _ _ Hk) as (A & B & C & (e & F)). repeat split; auto. eauto.
  Qed.
  Lemma explicit_row_ex s ms m e :
    In m ms -> rmExplicit m = Some e -> rmIsSegment m = s ->
    exists v, In v (explicit_row member_order (explicit_dimension_map s ms) (lbHref (rmDimension m))).
  Proof.
    intros Hm E S. destruct (explicit_map_spec s ms) as [H1 H2]. unfold explicit_row.
    specialize (H2 m e Hm E S).
    destruct (sget (lbHref (rmDimension m)) (explicit_dimension_map s ms)) as [x|] eqn:EX; [|congruence].
    destruct (H1 _ _ EX) as [NE _]. assert (P := MO x). destruct (member_order x) as [|[k y] t].
    - apply Permutation_nil in P. congruence.
    - eexists. now left.
  Qed.
  Lemma explicit_rows_ex ms m e :
    In m ms -> rmExplicit m = Some e ->
    exists v, In v (explicit_rows ms) /\ lbHref (vcDimension v) = lbHref (rmDimension m) /\ vcTypedDomain v = None.
  Proof.
    intros Hm E. destruct (explicit_row_ex (rmIsSegment m) ms m e Hm E eq_refl) as (v & Hv).
    exists v. split.
    - apply in_flat_map. exists (lbHref (rmDimension m)). split.
      + rewrite isort_in. assert (H := dims_complete ms m Hm). unfold not in H.
        destruct (in_dec string_dec (lbHref (rmDimension m)) (map fst (all_dimension_map ms))) as [|N]; auto.
        exfalso. apply H. now apply sget_None.
      + apply in_or_app. destruct (rmIsSegment m); auto.
    - apply explicit_row_In in Hv. tauto.
  Qed.
  Lemma explicit_rows_In ms v :
    In v (explicit_rows ms) ->
    vcTypedDomain v = None /\ vcParenthesized v = false /\ vcIndentation v = 0 /\
    exists m e, In m ms /\ rmExplicit m = Some e /\ rmDimension m = vcDimension v.
  Proof.
    intro H. apply in_flat_map in H. destruct H as (h & _ & H). apply in_app_or in H.
    destruct H as [H|H]; apply explicit_row_In in H; tauto.
  Qed.
  Lemma member_In cs c m :
    In c cs -> In m (rcMembers c) -> lbHref (rmDimension m) <> "" -> In m (dimension_members cs).
  Proof.
    intros H1 H2 H3. apply filter_In. split; [apply in_flat_map; eauto|]. now apply nonempty_iff.
  Qed.
  Lemma In_member cs m : In m (dimension_members cs) ->
    exists c, In c cs /\ In m (rcMembers c) /\ lbHref (rmDimension m) <> "".
  Proof.
    intro H. apply filter_In in H. destruct H as [H1 H2]. apply in_flat_map in H1. destruct H1 as (c & A & B).
    apply nonempty_iff in H2. eauto.
  Qed.

  (** the trees name what the columns report *)
  Lemma shallow_trees (D : labelled -> Prop) cs trees :
    Forall (reported_tree cs) trees ->
    (forall t d x, In t trees -> In d (ra_children t) ->
       sget (ra_locator d) (all_dimension_map (dimension_members cs)) = Some x -> D x) ->
    exists o ch, reduce_trees trees = RArc "" o ch /\
      Forall (shallow_tree (all_dimension_map (dimension_members cs))
                           (all_typed_domain_map (dimension_members cs)) D) ch.
  Proof.
    intros F HD.
    assert (F' : Forall nonempty_tree trees) by (eapply Forall_impl; [|exact F]; intros t H; apply H).
    destruct (reduced_shape trees F') as (E & H1 & H2).
    destruct (reduce_trees trees) as [l o ch]. cbn [ra_locator ra_children] in *. subst l.
    exists o, ch. split; auto. apply Forall_forall. intros d Hd.
    rewrite Forall_forall in F. destruct (H1 d Hd) as (t & d' & Ht & Hd' & EL).
    destruct (F t Ht) as [_ G]. destruct (G d' Hd') as (NE & (c & m & Hc & Hm & Em) & _).
    unfold shallow_tree. rewrite EL. split; auto. split.
    - assert (DC := dims_complete (dimension_members cs) m).
      rewrite Em in DC. specialize (DC (member_In cs c m Hc Hm ltac:(congruence))).
      destruct (sget (ra_locator d') _) as [x|] eqn:EX; [|congruence]. exists x. split; eauto.
    - intros n Hn k Hk. destruct (H2 d n k Hd Hn Hk) as (t2 & d2 & n2 & k2 & Ht2 & Hd2 & Hn2 & Hk2 & EK).
      rewrite EK. destruct (F t2 Ht2) as [_ G2]. destruct (G2 d2 Hd2) as (_ & _ & G3).
      destruct (G3 n2 Hn2 k2 Hk2) as (NE2 & (c2 & m2 & td & Hc2 & Hm2 & ND2 & ET & EH)).
      split; auto. rewrite <- EH. eapply typed_complete; eauto. eapply member_In; eauto.
  Qed.
  Lemma void_spec (D : labelled -> Prop) cs seg scen :
    Forall (reported_tree cs) seg -> Forall (reported_tree cs) scen ->
    (forall t d x, In t (seg ++ scen)%list -> In d (ra_children t) ->
       sget (ra_locator d) (all_dimension_map (dimension_members cs)) = Some x -> D x) ->
    exists rows, get_void_quadrant member_order cs seg scen
                 = Ok (explicit_rows (dimension_members cs) ++ rows)%list /\
      Forall (row_ok D (fun t => sget (lbHref t) (all_typed_domain_map (dimension_members cs)) = Some t)) rows.
  Proof.
    intros F1 F2 HD. set (T := fun t => sget (lbHref t) (all_typed_domain_map (dimension_members cs)) = Some t).
    assert (HT : forall l t, sget l (all_typed_domain_map (dimension_members cs)) = Some t -> T t).
    { intros l t H. unfold T. destruct (typed_sound _ _ _ H) as [-> _]. exact H. }
    destruct (shallow_trees D cs seg F1) as (o1 & ch1 & E1 & S1).
    { intros; eapply HD; eauto. apply in_or_app; eauto. }
    destruct (shallow_trees D cs scen F2) as (o2 & ch2 & E2 & S2).
    { intros; eapply HD; eauto. apply in_or_app; eauto. }
    unfold get_void_quadrant. cbv zeta. rewrite E1, E2.
    fold (explicit_rows (dimension_members cs)).
    destruct (indents_root _ _ D T HT false o1 ch1 S1 None (explicit_rows (dimension_members cs)))
      as (d1 & r1 & -> & Hd1 & G1); [discriminate|]. cbn [bind].
    destruct (indents_root _ _ D T HT true o2 ch2 S2 d1 (explicit_rows (dimension_members cs) ++ r1)%list)
      as (d2 & r2 & -> & Hd2 & G2); [auto|]. cbn [bind snd].
    exists (r1 ++ r2)%list. rewrite app_assoc. split; auto. apply Forall_app; auto.
  Qed.
End Void.

(** ** The factual quadrant *)
Lemma numbered_from {A} (l : list A) s i :
  nth_error (combine (seq s (length l)) l) i = option_map (fun x => (s + i, x)) (nth_error l i).
Proof.
  revert s i. induction l as [|a l IH]; intros s [|i]; cbn; auto.
  - now rewrite Nat.add_0_r.
  - rewrite IH. destruct (nth_error l i); cbn; auto. do 2 f_equal. lia.
Qed.
Lemma numbered_nth {A} (l : list A) i x : nth_error l i = Some x -> nth_error (numbered l) i = Some (i, x).
Proof. intro H. unfold numbered. now rewrite numbered_from, H. Qed.
Lemma numbered_length {A} (l : list A) : length (numbered l) = length l.
Proof. unfold numbered. rewrite combine_length, seq_length. lia. Qed.
Lemma Forall2_nth {A B} (R : A -> B -> Prop) l l' i x :
  Forall2 R l l' -> nth_error l i = Some x -> exists y, nth_error l' i = Some y /\ R x y.
Proof.
  intro F. revert i. induction F as [|a b l l' H F IH]; intros [|i]; cbn; try discriminate; eauto.
  intros [= <-]. eauto.
Qed.
Lemma Forall2_len {A B} (R : A -> B -> Prop) l l' : Forall2 R l l' -> length l = length l'.
Proof. induction 1; cbn; auto. Qed.
Lemma Forall2_In_r {A B} (R : A -> B -> Prop) l l' y : Forall2 R l l' -> In y l' -> exists x, In x l /\ R x y.
Proof. induction 1; intros []; subst; [eexists; split; [now left|auto]|]. destruct IHForall2 as (z & ? & ?); auto. exists z. split; auto. now right. Qed.
Lemma Forall2_In_l {A B} (R : A -> B -> Prop) l l' x : Forall2 R l l' -> In x l -> exists y, In y l' /\ R x y.
Proof. induction 1; intros []; subst; [eexists; split; [now left|auto]|]. destruct IHForall2 as (z & ? & ?); auto. exists z. split; auto. now right. Qed.

Definition put_footnote (m : list (string * footnote)) (f : footnote) :=
  match sget (fnID f) m with Some _ => m | None => sset (fnID f) f m end.
Lemma add_all notes m :
  fold_left add_footnotes notes m = fold_left put_footnote (concat notes) m.
Proof.
  revert m. induction notes as [|l notes IH]; intro m; cbn [fold_left concat]; auto.
  rewrite fold_left_app, IH. reflexivity.
Qed.
Lemma put_spec fs m :
  is_map m -> (forall k f, In (k, f) m -> k = fnID f) ->
  is_map (fold_left put_footnote fs m) /\
  (forall k f, In (k, f) (fold_left put_footnote fs m) -> k = fnID f /\ (In (k, f) m \/ In f fs)) /\
  (forall k, In k (map fst m) -> In k (map fst (fold_left put_footnote fs m))) /\
  (forall f, In f fs -> In (fnID f) (map fst (fold_left put_footnote fs m))).
Proof.
  revert m. induction fs as [|f fs IH]; intros m HM HK; cbn [fold_left].
  - split; auto. split; [intros k g H; split; auto|]. split; auto. intros ? [].
  - assert (HM' : is_map (put_footnote m f)).
    { unfold put_footnote. destruct (sget (fnID f) m); auto. now apply sset_is_map. }
    assert (HI : forall k g, In (k, g) (put_footnote m f) -> (k = fnID f /\ g = f) \/ In (k, g) m).
    { unfold put_footnote. intros k g. destruct (sget (fnID f) m); auto. apply sset_In. }
    assert (HS : forall k, In k (map fst m) -> In k (map fst (put_footnote m f))).
    { unfold put_footnote. intros k. destruct (sget (fnID f) m); auto. rewrite sset_keys. auto. }
    assert (HF : In (fnID f) (map fst (put_footnote m f))).
    { unfold put_footnote. destruct (sget (fnID f) m) eqn:E.
      - apply sget_In in E. now apply (in_map fst) in E.
      - rewrite sset_keys. auto. }
    destruct (IH (put_footnote m f) HM') as (A & B & C & D).
    { intros k g H. destruct (HI k g H) as [[-> ->]|H']; auto. }
    split; auto. split; [|split; auto].
    + intros k g H. destruct (B k g H) as [E [H'|H']]; split; auto.
      * destruct (HI k g H') as [[-> ->]|]; auto. right. now left.
      * right. now right.
    + intros g [<-|Hg]; auto.
Qed.

Section FactualFacts.
  Variable tree : list arc -> string -> rarc.
  Variable env : nat -> nat -> cell_env.
  Variable id_order : nat -> nat -> list (string * footnote) -> list (string * footnote).
  Variable id_order_final : list (string * footnote) -> list (string * footnote).
  Notation quadrant := (get_factual_quadrant tree env id_order id_order_final).
  Definition all_notes (hrefs : list string) (cols : list relevant_context) : list (list (list footnote)) :=
    map (fun ih => map (fun jc => notes_at tree env (fst ih) (fst jc) (snd ih) (rcContextRef (snd jc))) (numbered cols)) (numbered hrefs).
  Definition id_map (hrefs : list string) (cols : list relevant_context) : list (string * footnote) :=
    fold_left add_footnotes (concat (all_notes hrefs cols)) [].
  Definition shown_at (hrefs : list string) (cols : list relevant_context) (i j : nat) (f : footnote) : Prop :=
    exists h c, nth_error hrefs i = Some h /\ nth_error cols j = Some c /\
      In f (notes_at tree env i j h (rcContextRef c)).

  Lemma numbered_In {A} (l : list A) k x : In (k, x) (numbered l) -> nth_error l k = Some x.
  Proof.
    intro H. apply In_nth_error in H. destruct H as [n H]. unfold numbered in H. rewrite numbered_from in H.
    destruct (nth_error l n) eqn:E; [|discriminate]. cbn in H. injection H as <- <-. exact E.
  Qed.
  Lemma all_notes_In hrefs cols f :
    In f (concat (concat (all_notes hrefs cols))) <-> exists i j, shown_at hrefs cols i j f.
  Proof.
    unfold all_notes, shown_at. split.
    - intro H. apply in_concat in H. destruct H as (l & Hl & Hf). apply in_concat in Hl.
      destruct Hl as (r & Hr & Hl). apply in_map_iff in Hr. destruct Hr as ([i h] & <- & Hh).
      apply in_map_iff in Hl. destruct Hl as ([j c] & <- & Hc). cbn [fst snd] in Hf.
      exists i, j, h, c. split; [|split]; auto using numbered_In.
    - intros (i & j & h & c & Hh & Hc & Hf). apply in_concat. eexists. split; [|exact Hf].
      apply in_concat. eexists. split.
      + apply in_map_iff. exists (i, h). split; [reflexivity|]. eapply nth_error_In. apply numbered_nth; eauto.
      + apply in_map_iff. exists (j, c). split; [reflexivity|]. eapply nth_error_In. apply numbered_nth; eauto.
  Qed.
  Lemma id_map_spec hrefs cols :
    is_map (id_map hrefs cols) /\
    (forall k f, In (k, f) (id_map hrefs cols) -> k = fnID f /\ exists i j, shown_at hrefs cols i j f) /\
    (forall i j f, shown_at hrefs cols i j f -> In (fnID f) (map fst (id_map hrefs cols))).
  Proof.
    unfold id_map. rewrite add_all.
    destruct (put_spec (concat (concat (all_notes hrefs cols))) []) as (A & B & _ & D); [constructor|intros ? ? []|].
    split; auto. split.
    - intros k f H. destruct (B k f H) as [E [[]|H']]. split; auto. now apply all_notes_In.
    - intros i j f H. apply D. apply all_notes_In. eauto.
  Qed.

  Lemma quadrant_inv hrefs cols langs rows grid notes :
    hrefs <> [] -> cols <> [] -> quadrant hrefs cols langs = Ok (rows, grid, notes) ->
    Forall2 (fun ih row => Forall2 (fun jc x =>
        render (ce_render (env (fst ih) (fst jc))) (fact_at env (fst ih) (fst jc) (snd ih) (rcContextRef (snd jc))) langs = Ok x)
      (numbered cols) row) (numbered hrefs) rows /\
    grid = map (fun ir => map (fun jn => cell_numbers (id_order (fst ir) (fst jn) (id_map hrefs cols)) (snd jn))
                                       (numbered (snd ir))) (numbered (all_notes hrefs cols)) /\
    notes = map (fun kf => fnHtml (snd kf)) (id_order_final (id_map hrefs cols)).
  Proof.
    intros NH NC. unfold get_factual_quadrant. destruct hrefs as [|h0 t0]; [congruence|].
    destruct cols as [|c0 u0]; [congruence|].
    set (hrefs := h0 :: t0). set (cols := c0 :: u0). clearbody hrefs cols.
    destruct (mapM _ (numbered hrefs)) as [r|?|] eqn:E; cbn [bind]; try discriminate.
    cbv zeta. intro H. apply mapM_Ok in E.
    assert (E1 : rows = r) by congruence. split.
    - subst r. eapply Forall2_weaken; [|exact E]. intros x y H'. now apply mapM_Ok in H'.
    - fold (all_notes hrefs cols) in H. fold (id_map hrefs cols) in H.
      split; congruence.
  Qed.
  Lemma quadrant_cell hrefs cols langs rows grid notes i j h c :
    quadrant hrefs cols langs = Ok (rows, grid, notes) ->
    nth_error hrefs i = Some h -> nth_error cols j = Some c ->
    (exists x, cell rows i j x /\
      render (ce_render (env i j)) (fact_at env i j h (rcContextRef c)) langs = Ok x) /\
    cell grid i j (cell_numbers (id_order i j (id_map hrefs cols)) (notes_at tree env i j h (rcContextRef c))).
  Proof.
    intros E Hh Hc.
    assert (NH : hrefs <> []) by (intros ->; now destruct i).
    assert (NC : cols <> []) by (intros ->; now destruct j).
    destruct (quadrant_inv _ _ _ _ _ _ NH NC E) as (F & -> & _). split.
    - destruct (Forall2_nth _ _ _ _ _ F (numbered_nth _ _ _ Hh)) as (row & Hr & F').
      destruct (Forall2_nth _ _ _ _ _ F' (numbered_nth _ _ _ Hc)) as (x & Hx & HR). cbn [fst snd] in HR.
      exists x. split; auto. exists row. auto.
    - set (nr := map (fun jc => notes_at tree env i (fst jc) h (rcContextRef (snd jc))) (numbered cols)).
      assert (N1 : nth_error (all_notes hrefs cols) i = Some nr).
      { unfold all_notes. erewrite map_nth_error; [|apply numbered_nth; exact Hh]. reflexivity. }
      assert (N2 : nth_error nr j = Some (notes_at tree env i j h (rcContextRef c))).
      { unfold nr. erewrite map_nth_error; [|apply numbered_nth; exact Hc]. reflexivity. }
      eexists. split.
      + erewrite map_nth_error; [|apply numbered_nth; exact N1]. reflexivity.
      + erewrite map_nth_error; [|apply numbered_nth; exact N2]. reflexivity.
  Qed.
  Lemma quadrant_shape hrefs cols langs rows grid notes :
    hrefs <> [] -> cols <> [] -> quadrant hrefs cols langs = Ok (rows, grid, notes) ->
    shape (length hrefs) (length cols) rows /\ shape (length hrefs) (length cols) grid.
  Proof.
    intros NH NC E. destruct (quadrant_inv _ _ _ _ _ _ NH NC E) as (F & -> & _). split.
    - split.
      + apply Forall2_len in F. now rewrite numbered_length in F.
      + intros r Hr. destruct (Forall2_In_r _ _ _ _ F Hr) as (x & _ & F'). apply Forall2_len in F'.
        now rewrite numbered_length in F'.
    - assert (L : length (all_notes hrefs cols) = length hrefs).
      { unfold all_notes. now rewrite map_length, numbered_length. }
      split; [now rewrite map_length, numbered_length|].
      intros r Hr. apply in_map_iff in Hr. destruct Hr as ([k n] & <- & Hk). apply numbered_In in Hk.
      rewrite map_length, numbered_length. apply nth_error_In in Hk. unfold all_notes in Hk.
      apply in_map_iff in Hk. destruct Hk as (x & <- & _). cbn [snd]. now rewrite map_length, numbered_length.
  Qed.
  Lemma cell_shape {A} rows cols (g : list (list A)) i j x : shape rows cols g -> cell g i j x -> i < rows /\ j < cols.
  Proof.
    intros [H1 H2] (r & Hr & Hx). split.
    - rewrite <- H1. apply nth_error_Some. congruence.
    - rewrite <- (H2 r); [apply nth_error_Some; congruence|]. eapply nth_error_In; eauto.
  Qed.

  (** numbers *)
  Lemma seq1_nth {A} (l : list A) k x : In (k, x) (combine (seq 1 (length l)) l) <-> 1 <= k /\ nth_error l (k - 1) = Some x.
  Proof.
    split.
    - intro H. apply In_nth_error in H. destruct H as [n H]. rewrite numbered_from in H.
      destruct (nth_error l n) eqn:E; [|discriminate]. cbn in H. injection H as <- <-.
      split; [lia|]. now replace (S n - 1) with n by lia.
    - intros [H1 H2]. apply nth_error_In with (n := k - 1). rewrite numbered_from, H2. cbn. f_equal. f_equal. lia.
  Qed.
  Lemma cell_numbers_In order notes k :
    In k (cell_numbers order notes) <->
    1 <= k /\ exists id g f, nth_error order (k - 1) = Some (id, g) /\ In f notes /\ fnID f = id.
  Proof.
    unfold cell_numbers. rewrite in_map_iff. split.
    - intros ([k' [id g]] & E & H). cbn in E. subst k'. apply filter_In in H. destruct H as [H1 H2].
      apply seq1_nth in H1. destruct H1 as [H1 H1']. cbn in H2. apply existsb_exists in H2.
      destruct H2 as (f & Hf & Ef). apply String.eqb_eq in Ef. split; auto. exists id, g, f. auto.
    - intros (H1 & id & g & f & H2 & Hf & Ef). exists (k, (id, g)). split; auto. apply filter_In. split.
      + now apply seq1_nth.
      + cbn. apply existsb_exists. exists f. split; auto. now apply String.eqb_eq.
  Qed.
End FactualFacts.

(** every footnote found is one of the instances' *)
Lemma get_footnotes_In tree o1 o2 fo f :
  In f (get_footnotes tree o1 o2 fo) -> In f (flat_map fkFootnotes (flat_map iFootnoteLinks o2)).
Proof.
  assert (C : forall i id cs r, fn_children o2 i id cs = Some r -> forall f, In f r ->
              In f (flat_map fkFootnotes (flat_map iFootnoteLinks o2))).
  { intros i id cs. induction cs as [|c cs IH]; cbn [fn_children]; [discriminate|].
    destruct (String.eqb _ _); [|exact IH]. intros r [= <-] g Hg. apply collect_In in Hg.
    destruct Hg as (x & _ & Hx). unfold find_footnote in Hx. apply find_some in Hx. tauto. }
  assert (L : forall i id ls r, fn_links tree o2 i id ls = Some r -> forall f, In f r ->
              In f (flat_map fkFootnotes (flat_map iFootnoteLinks o2))).
  { intros i id ls. induction ls as [|l ls IH]; cbn [fn_links]; [discriminate|].
    destruct (ra_children _) as [|c cs]; [intros r [= <-] g []|].
    destruct (fn_children o2 i id (c :: cs)) as [r'|] eqn:E.
    - intros r [= <-]. eapply C; eauto.
    - exact IH. }
  destruct fo as [x|]; [|intros []]. cbn [get_footnotes].
  induction o1 as [|i o1 IH]; cbn [fn_instances]; [intros []|].
  destruct (fn_links tree o2 i (fID x) (iFootnoteLinks i)) as [r|] eqn:E; [|exact IH]. eapply L; eauto.
Qed.
