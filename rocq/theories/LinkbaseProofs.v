(** * LinkbaseProofs: lemmas for LinkbaseProps *)
From Verif Require Import GoBase GoSpec GoFacts AttrModel AttrSpec AttrProofs
  SchemaModel SchemaSpec SchemaProofs LinkbaseModel LinkbaseSpec.
Local Open Scope string_scope.

Lemma req_iff attrs n v : req attrs n = Some v <-> required attrs n v.
Proof.
  rewrite required_iff. unfold req, attr_nonempty. destruct (find_attr attrs n) as [a|].
  - destruct (String.eqb (avalue a) ""); split; try discriminate.
    + intros (b&H&_); discriminate.
    + intro H; injection H; eauto.
    + intros (b&H&<-). congruence.
  - split; [discriminate|]. intros (b&H&_); discriminate.
Qed.
Lemma req_None attrs n : req attrs n = None <-> forall v, ~ required attrs n v.
Proof.
  split.
  - intros H v Hv. apply req_iff in Hv. congruence.
  - intro H. destruct (req attrs n) as [v|] eqn:E; auto. apply req_iff in E. now apply H in E.
Qed.
Lemma xreq_iff attrs n v : xreq attrs n = Some v <-> xlink attrs n v.
Proof.
  unfold xreq, xlink, required_in. destruct (find_attr attrs n) as [a|] eqn:E.
  - apply find_attr_the in E. destruct (String.eqb_spec (nspace (aname a)) XLINK) as [S|S]; simpl.
    + destruct (String.eqb_spec (avalue a) "") as [V|V]; split; try discriminate.
      * intros [(b&Hb&_&<-) N]. rewrite (the_attr_fun _ _ _ _ Hb E) in N. contradiction.
      * intro H; injection H; intros <-. split; eauto.
      * intros [(b&Hb&_&<-) N]. now rewrite (the_attr_fun _ _ _ _ Hb E).
    + split; [discriminate|]. intros [(b&Hb&Sb&<-) N]. rewrite (the_attr_fun _ _ _ _ Hb E) in Sb. contradiction.
  - split; [discriminate|]. intros [(b&Hb&_) _]. apply find_attr_no in E. now apply no_the_attr in Hb.
Qed.
Lemma xtype_is_iff attrs v u : v <> "" -> (xtype_is attrs v = Some u <-> xlink attrs "type" v).
Proof.
  intro Nv. rewrite <- xreq_iff. unfold xtype_is, xreq. destruct u. destruct (find_attr attrs "type") as [a|].
  - destruct (String.eqb_spec (nspace (aname a)) XLINK); simpl; [|split; discriminate].
    destruct (String.eqb_spec (avalue a) v) as [->|N]; simpl.
    + destruct (String.eqb_spec v ""); [contradiction|]. tauto.
    + destruct (String.eqb_spec (avalue a) ""); split; try discriminate.
      intro H; injection H; intros; contradiction.
  - split; discriminate.
Qed.
Lemma obind_Some {A B} (o : option A) (f : A -> option B) y :
  obind o f = Some y <-> exists x, o = Some x /\ f x = Some y.
Proof. destruct o; simpl; split; try discriminate; eauto; intros (x&H&E); congruence. Qed.
Lemma oguard_Some b u : oguard b = Some u <-> b = true.
Proof. destruct b, u; simpl; split; congruence. Qed.

Ltac binds H :=
  repeat match type of H with
         | obind _ _ = Some _ =>
             let E := fresh "E" in apply obind_Some in H; destruct H as (?&E&H)
         end.

Lemma hydrate_role_ref_iff e r : hydrate_role_ref e = Some r <-> is_role_ref e r.
Proof.
  unfold hydrate_role_ref. split.
  - intro H. binds H. injection H; intros <-. constructor; simpl.
    + apply oguard_Some, String.eqb_eq in E. exact E.
    + now apply req_iff.
    + now apply xreq_iff.
  - intros [H1 H2 H3]. apply req_iff in H2. apply xreq_iff in H3.
    rewrite H1, H2, H3. simpl. now destruct r.
Qed.
Lemma hydrate_loc_iff e l : hydrate_loc e = Some l <-> is_loc e l.
Proof.
  unfold hydrate_loc. split.
  - intro H. binds H. injection H; intros <-. apply xtype_is_iff in E; [|discriminate].
    constructor; simpl; auto; [now apply xreq_iff|now apply req_iff].
  - intros [H1 H2 H3]. apply req_iff in H3. apply xreq_iff in H2.
    apply (xtype_is_iff _ _ tt) in H1; [|discriminate].
    rewrite H1, H2, H3. simpl. now destruct l.
Qed.
Lemma link_role_iff e r : link_role e = Some r <->
  xlink (le_attrs e) "type" "extended" /\ required (le_attrs e) "role" r.
Proof.
  unfold link_role. rewrite obind_Some, <- req_iff. split.
  - intros (u&H1&H2). apply xtype_is_iff in H1; [|discriminate]. auto.
  - intros [H1 H2]. exists tt. split; auto. apply xtype_is_iff; auto. discriminate.
Qed.
Lemma hydrate_link_iff {arc} (harc : elem -> option arc) is_a :
  (forall e a, harc e = Some a <-> is_a e a) ->
  forall e l, hydrate_link harc e = Some l <-> is_link is_a e l.
Proof.
  intros HA e l. unfold hydrate_link. rewrite obind_Some.
  assert (Floc : forall x y z, is_loc x y -> is_loc x z -> y = z)
    by (intros x y z Hy Hz; apply hydrate_loc_iff in Hy, Hz; congruence).
  assert (Farc : forall x y z, is_a x y -> is_a x z -> y = z)
    by (intros x y z Hy Hz; apply HA in Hy, Hz; congruence).
  split.
  - intros (r&H1&H2). apply link_role_iff in H1 as [? ?]. injection H2; intros <-.
    constructor; simpl; auto; apply collect_image; auto. apply hydrate_loc_iff.
  - intros [H1 H2 H3 H4]. exists (lRole l). split; [apply link_role_iff; auto|].
    f_equal. destruct l as [r ls as']; simpl in *. f_equal.
    + eapply image_of_fun; [exact Floc| |exact H3]. apply collect_image. apply hydrate_loc_iff.
    + eapply image_of_fun; [exact Farc| |exact H4]. apply collect_image. auto.
Qed.

Section Numbers.
  Variable pf : string -> f64 * bool.
  Lemma parse_order_iff s o : parse_order pf s = o <-> order_of pf s o.
  Proof.
    unfold parse_order, order_of. change max_float64 with sorts_last.
    destruct (pf s) as [v e]; simpl; destruct e; split; auto.
    - intros [[? _]|[_ ->]]; congruence.
    - intros [[_ ->]|[? _]]; congruence.
  Qed.
  Lemma parse_weight_iff s o : parse_weight pf s = o <-> weight_of pf s o.
  Proof.
    unfold parse_weight, weight_of. destruct (pf s) as [v e]; simpl; destruct e; split; auto.
    - intros [[? _]|[_ ->]]; congruence.
    - intros [[_ ->]|[? _]]; congruence.
  Qed.

  (** the common part of the three arc readers *)
  Lemma is_arc_iff e o r f t :
    is_arc pf e o r f t <->
    exists os, xtype_is (eattrs e) "arc" = Some tt /\ req (eattrs e) "order" = Some os /\
      parse_order pf os = o /\ xreq (eattrs e) "arcrole" = Some r /\
      xreq (eattrs e) "from" = Some f /\ xreq (eattrs e) "to" = Some t.
  Proof.
    split.
    - intros [H1 (os&H2&H2') H3 H4 H5]. exists os.
      apply (xtype_is_iff _ _ tt) in H1; [|discriminate]. apply req_iff in H2. apply parse_order_iff in H2'.
      apply xreq_iff in H3, H4, H5. auto 10.
    - intros (os&H1&H2&H3&H4&H5&H6). constructor.
      + apply (xtype_is_iff _ _ tt) in H1; auto; discriminate.
      + exists os. split; [now apply req_iff|now apply parse_order_iff].
      + now apply xreq_iff. + now apply xreq_iff. + now apply xreq_iff.
  Qed.

  Lemma hydrate_parc_iff e a : hydrate_parc pf e = Some a <-> is_presentation_arc pf e a.
  Proof.
    unfold hydrate_parc, is_presentation_arc. rewrite is_arc_iff. split.
    - intro H. binds H. injection H; intros <-. simpl. destruct x. split.
      + eexists; eauto 10.
      + now apply attr_or_empty_iff.
    - intros [(os&H1&H2&H3&H4&H5&H6) H7]. apply attr_or_empty_iff in H7.
      rewrite H1, H2, H4, H5, H6. simpl. rewrite H3, H7. now destruct a.
  Qed.
  Lemma hydrate_usable_iff e :
    hydrate_usable (eattrs e) = true <-> exists v b, attr_val (eattrs e) "usable" v /\ bool_lit v b.
  Proof.
    assert (PB : forall s, (exists b, parse_bool s = Some b) <-> exists b, bool_lit s b).
    { intro s. unfold parse_bool, bool_lit. change ["1"; "t"; "T"; "true"; "TRUE"; "True"] with true_lits.
      change ["0"; "f"; "F"; "false"; "FALSE"; "False"] with false_lits.
      destruct (mem String.eqb s true_lits) eqn:E1.
      - apply (mem_In _ seqP) in E1. split; eauto.
      - apply (mem_false _ seqP) in E1. destruct (mem String.eqb s false_lits) eqn:E2.
        + apply (mem_In _ seqP) in E2. split; eauto.
        + apply (mem_false _ seqP) in E2. split; intros (b&H); [discriminate|].
          destruct H as [[H _]|[H _]]; contradiction. }
    unfold hydrate_usable. destruct (find_attr (eattrs e) "usable") as [a|] eqn:E.
    - split.
      + intro H. destruct (parse_bool (avalue a)) eqn:P; [|discriminate].
        destruct (proj1 (PB (avalue a))) as (b'&Hb); eauto.
        exists (avalue a), b'. split; auto. apply attr_val_iff; eauto.
      + intros (v&b&Hv&Hb). apply attr_val_iff in Hv as (a'&Ha'&<-).
        assert (a' = a) as -> by congruence.
        destruct (proj2 (PB (avalue a))) as (b'&->); eauto.
    - split; [discriminate|]. intros (v&b&Hv&_). apply attr_val_iff in Hv as (a'&Ha'&_). congruence.
  Qed.
  Lemma hydrate_closed_false e : hydrate_closed e = false.
  Proof. unfold hydrate_closed. destruct (find_attr e "closed"); auto. destruct (parse_bool (avalue x)); auto. Qed.

  Lemma hydrate_darc_iff e a : hydrate_darc pf e = Some a <-> is_definition_arc pf e a.
  Proof.
    unfold hydrate_darc, is_definition_arc. rewrite is_arc_iff. split.
    - intro H. binds H. injection H; intros <-. simpl. destruct x. repeat split.
      + eexists; eauto 10.
      + now apply attr_or_empty_iff.
      + now apply attr_or_empty_iff.
      + apply hydrate_closed_false.
      + apply hydrate_usable_iff.
      + apply hydrate_usable_iff.
    - intros [(os&H1&H2&H3&H4&H5&H6) [H7 [H8 [H9 H10]]]]. apply attr_or_empty_iff in H7, H8.
      rewrite H1, H2, H4, H5, H6. simpl. rewrite H3, H7, H8, hydrate_closed_false.
      rewrite <- hydrate_usable_iff in H10.
      assert (hydrate_usable (eattrs e) = daUsable a) as ->
        by (destruct (hydrate_usable (eattrs e)), (daUsable a); intuition congruence).
      rewrite <- H9. now destruct a.
  Qed.
  Lemma hydrate_carc_iff e a : hydrate_carc pf e = Some a <-> is_calculation_arc pf e a.
  Proof.
    unfold hydrate_carc, is_calculation_arc. rewrite is_arc_iff. split.
    - intro H. binds H. injection H; intros <-. simpl. destruct x. split.
      + eexists; eauto 10.
      + eexists. rewrite <- req_iff, <- parse_weight_iff. eauto.
    - intros [(os&H1&H2&H3&H4&H5&H6) (w&H7&H8)]. apply req_iff in H7. apply parse_weight_iff in H8.
      rewrite H1, H2, H4, H5, H6, H7. simpl. rewrite H3, H8. now destruct a.
  Qed.

  Lemma hydrate_larc_iff n ie a : hydrate_larc pf n ie = Some a <-> is_label_arc pf n ie a.
  Proof.
    destruct ie as [i e]. unfold hydrate_larc. split.
    - intro H. binds H. injection H; intros <-. apply xtype_is_iff in E; [|discriminate].
      constructor; simpl; auto; try now apply xreq_iff.
      destruct (req (eattrs e) "order") as [o|] eqn:O.
      + left. exists o. split; auto. now apply req_iff.
      + right. split; auto. now apply req_None.
    - intros [H1 H2 H3 H4 H5]. simpl in *.
      apply (xtype_is_iff _ _ tt) in H1; [|discriminate]. apply xreq_iff in H3, H4, H5.
      rewrite H1, H3, H4, H5. simpl. f_equal. destruct a; simpl in *. f_equal.
      destruct H2 as [(o&Ho&->)|[Hn ->]].
      + apply req_iff in Ho. now rewrite Ho.
      + apply req_None in Hn. now rewrite Hn.
  Qed.
  Lemma hydrate_label_iff e l : hydrate_label e = Some l <-> is_label e l.
  Proof.
    unfold hydrate_label. split.
    - intro H. binds H. injection H; intros <-.
      constructor; simpl; auto; [now apply xreq_iff|now apply xreq_iff|now apply req_iff].
    - intros [H1 H2 H3 H4]. apply xreq_iff in H1, H2. apply req_iff in H3.
      rewrite H1, H2, H3. simpl. rewrite <- H4. now destruct l.
  Qed.
  Lemma hydrate_label_link_iff e l : hydrate_label_link pf e = Some l <-> is_label_link pf e l.
  Proof.
    unfold hydrate_label_link. rewrite obind_Some. split.
    - intros (r&H1&H2). apply link_role_iff in H1 as [? ?]. injection H2; intros <-.
      constructor; simpl; auto; apply collect_image.
      + apply hydrate_loc_iff. + apply hydrate_label_iff. + apply hydrate_larc_iff.
    - intros [H1 H2 H3 H4 H5]. exists (lnRole l). split; [apply link_role_iff; auto|].
      f_equal. destruct l as [r ls lb as']; simpl in *. f_equal.
      + eapply image_of_fun; [|apply collect_image; apply hydrate_loc_iff|exact H3].
        intros x y z Hy Hz; apply hydrate_loc_iff in Hy, Hz; congruence.
      + eapply image_of_fun; [|apply collect_image; apply hydrate_label_iff|exact H4].
        intros x y z Hy Hz; apply hydrate_label_iff in Hy, Hz; congruence.
      + eapply image_of_fun; [|apply collect_image; apply hydrate_larc_iff|exact H5].
        intros x y z Hy Hz; apply hydrate_larc_iff in Hy, Hz; congruence.
  Qed.
End Numbers.

(** ** Merging *)
Definition merged {arc} (ins : list (link arc)) (occ : list (string * link arc)) : Prop :=
  NoDup (map fst occ) /\
  (forall r, In r (map fst occ) <-> In r (map lRole ins)) /\
  forall r l, In (r, l) occ -> lRole l = r /\
    lLocs l = flat_map lLocs (filter (fun x => String.eqb (lRole x) r) ins) /\
    lArcs l = flat_map lArcs (filter (fun x => String.eqb (lRole x) r) ins).

Lemma filter_none_nil {A} (p : A -> bool) l : (forall x, In x l -> p x = false) -> filter p l = [].
Proof.
  induction l as [|x t IH]; simpl; intro H; auto. rewrite (H x) by auto. apply IH; auto.
Qed.

Lemma mset_In {V} k (v : V) m k' v' : NoDup (map fst m) ->
  In (k', v') (sset k v m) -> (k' = k /\ v' = v) \/ (k' <> k /\ In (k', v') m).
Proof.
  induction m as [|[a b] t IH]; simpl; intros ND H.
  - destruct H as [H|[]]. injection H; auto.
  - inversion ND as [|? ? Hn ND']; subst. destruct (String.eqb_spec a k) as [->|N]; simpl in H.
    + destruct H as [H|H]; [injection H; auto|]. right. split; auto.
      intros ->. apply Hn. apply in_map_iff. exists (k, v'). auto.
    + destruct H as [H|H]; [injection H; intros <- <-; auto|].
      destruct (IH ND' H) as [?|[? ?]]; auto.
Qed.

Lemma merge_step {arc} ins occ (l : link arc) : merged ins occ -> merged (ins ++ [l])%list (merge_link occ l).
Proof.
  intros (ND&RS&LS). unfold merge_link.
  assert (R : forall r, filter (fun x => String.eqb (lRole x) r) (ins ++ [l])%list =
     (filter (fun x => String.eqb (lRole x) r) ins ++ if String.eqb (lRole l) r then [l] else [])%list).
  { intro r. rewrite filter_app. simpl. destruct (String.eqb (lRole l) r); auto. }
  destruct (sget (lRole l) occ) as [m|] eqn:G; (split; [|split]).
  - now apply (mset_NoDup _ seqP).
  - intro r. rewrite (mset_keys_In _ seqP), RS, map_app, in_app_iff. simpl. intuition.
  - intros r l' Hl'. apply mset_In in Hl' as [[-> ->]|[N Hl']]; auto.
    + simpl. apply (mget_In _ seqP) in G. destruct (LS _ _ G) as (Hr&H1&H2).
      rewrite R, String.eqb_refl, !flat_map_app. simpl. rewrite !app_nil_r, H1, H2. auto.
    + destruct (LS _ _ Hl') as (Hr&H1&H2). rewrite R. rewrite seqb_false by auto.
      rewrite app_nil_r. auto.
  - now apply (mset_NoDup _ seqP).
  - intro r. rewrite (mset_keys_In _ seqP), RS, map_app, in_app_iff. simpl. intuition.
  - apply (mget_None _ seqP) in G. intros r l' Hl'. apply mset_In in Hl' as [[-> ->]|[N Hl']]; auto.
    + rewrite R, String.eqb_refl, !flat_map_app. simpl. rewrite !app_nil_r.
      rewrite (filter_none_nil _ ins); auto. intros x Hx. apply seqb_false. intro E.
      apply G, RS. rewrite <- E. now apply in_map.
    + destruct (LS _ _ Hl') as (Hr&H1&H2). rewrite R. rewrite seqb_false by auto.
      rewrite app_nil_r. auto.
Qed.
Lemma merge_fold {arc} (links : list (link arc)) : merged links (fold_left merge_link links []).
Proof.
  assert (G : forall (l ins : list (link arc)) occ, merged ins occ -> merged (ins ++ l)%list (fold_left merge_link l occ)).
  { induction l as [|x t IH]; simpl; intros ins occ H.
    - now rewrite app_nil_r.
    - replace (ins ++ x :: t)%list with ((ins ++ [x]) ++ t)%list by now rewrite <- app_assoc.
      apply IH. now apply merge_step. }
  apply (G links [] []). split; [constructor|]. split; simpl; [tauto|contradiction].
Qed.
Lemma dedup_merges {arc} shuffle (links : list (link arc)) :
  (forall l, Permutation (shuffle l) l) -> merges links (dedup_links shuffle links).
Proof.
  intro SH. destruct (merge_fold links) as (ND&RS&LS). unfold dedup_links.
  set (occ := fold_left merge_link links []) in *. specialize (SH occ).
  assert (E : map lRole (map snd (shuffle occ)) = map fst (shuffle occ)).
  { rewrite map_map. apply map_ext_in. intros [r l] H. simpl.
    destruct (LS r l); auto. eapply Permutation_in; eauto. }
  split; [|split].
  - rewrite E. eapply Permutation_NoDup; [|exact ND]. symmetry. now apply Permutation_map.
  - intro r. rewrite E, <- RS. split; apply Permutation_in; [|symmetry]; now apply Permutation_map.
  - intros l Hl. apply in_map_iff in Hl as ([r l']&<-&Hl). simpl.
    destruct (LS r l') as (->&H1&H2); auto. eapply Permutation_in; eauto.
Qed.
(** merging is determined up to order *)
Lemma merges_fun {arc} (ins out out' : list (link arc)) :
  merges ins out -> merges ins out' -> Permutation out out'.
Proof.
  intros (N1&R1&L1) (N2&R2&L2).
  assert (NoDup out /\ NoDup out') as [ND ND'] by (split; eapply NoDup_map_inv; eauto).
  apply NoDup_Permutation; auto.
  assert (G : forall o o', (forall r, In r (map lRole o) <-> In r (map lRole o')) ->
     (forall l, In l o ->
    lLocs l = flat_map lLocs (filter (fun x => String.eqb (lRole x) (lRole l)) ins) /\
    lArcs l = flat_map lArcs (filter (fun x => String.eqb (lRole x) (lRole l)) ins)) ->
     (forall l, In l o' ->
    lLocs l = flat_map lLocs (filter (fun x => String.eqb (lRole x) (lRole l)) ins) /\
    lArcs l = flat_map lArcs (filter (fun x => String.eqb (lRole x) (lRole l)) ins)) ->
     forall x, In x o -> In x o').
  { intros o o' HR H1 H2 x Hx.
    assert (Hr : In (lRole x) (map lRole o')) by (apply HR; now apply in_map).
    apply in_map_iff in Hr as (y&Ey&Hy). destruct (H1 x Hx) as [A1 A2]. destruct (H2 y Hy) as [B1 B2].
    rewrite Ey in B1, B2.
    assert (y = x) as <-; auto. destruct x, y; simpl in *. congruence. }
  intro x. split; eapply G; eauto; intro r; rewrite R1, R2; tauto.
Qed.
