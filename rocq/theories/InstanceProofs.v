(** * InstanceProofs: lemmas for InstanceProps *)
From Coq Require Import SpecFloat.
From Verif Require Import GoBase GoSpec GoFacts AttrModel AttrSpec AttrProofs SchemaModel SchemaSpec SchemaProofs
  LinkbaseModel LinkbaseSpec LinkbaseProofs InstanceModel InstanceSpec.
Local Open Scope string_scope.

(** ** Names *)
Lemma names_iff q nsp l href c : qenv_ok q ->
  (name_query q nsp l = Ok (Some (href, c)) <-> names q nsp l href c).
Proof. intro. now apply name_query_iff. Qed.
Lemma names_href_nonempty q nsp l href c : names q nsp l href c -> href <> "".
Proof. intros (loc&f&cs&_&H&_&_&_&->). destruct loc; [contradiction|discriminate]. Qed.
Lemma found_iff q nsp l href c : qenv_ok q ->
  (found (name_query q nsp l) = Some (href, c) <-> names q nsp l href c).
Proof.
  intro Hq. rewrite <- (names_iff q nsp l href c Hq). unfold found.
  destruct (name_query q nsp l) as [[[h c']|]|m|] eqn:E; try (split; discriminate).
  apply names_iff, names_href_nonempty in E; auto.
  rewrite seqb_false by auto. split; congruence.
Qed.
Lemma resolve_name_iff q attrs s href c : qenv_ok q ->
  (resolve_name q attrs s = Some (href, c) <-> qname_names q attrs s href c).
Proof.
  intro Hq. unfold resolve_name, qname_names. rewrite obind_Some. split.
  - intros (u&H1&H2). apply oguard_Some in H1. apply found_iff in H2; auto.
    exists (xmlns attrs s). split; [apply xmlns_resolves|]. split; auto.
    apply negb_true_iff, String.eqb_neq in H1. auto.
  - intros (n&H1&H2&H3). rewrite (resolves_fun _ _ _ _ (xmlns_resolves attrs s) H1).
    exists tt. split.
    + apply oguard_Some, negb_true_iff, String.eqb_neq. auto.
    + now apply found_iff.
Qed.
Lemma names_concept q nsp l href c : names q nsp l href c -> cXMLName c = XName nsp l.
Proof. intros (loc&f&cs&_&_&_&_&H&_). now apply first_such_In in H. Qed.
Lemma names_local_nonempty q nsp href c : ~ names q nsp "" href c.
Proof.
  intros (loc&f&cs&_&_&_&Hc&H&_). apply first_such_In in H as [Hi Hn].
  destruct (image_of_In _ _ _ _ Hc Hi) as (e&_&D). apply dc_name in D as [_ D].
  rewrite Hn in D. now apply D.
Qed.
Lemma qname_empty q attrs href c : ~ qname_names q attrs "" href c.
Proof.
  intros (n&R&_&N). inversion R; subst.
  - now apply names_local_nonempty in N.
  - destruct p; discriminate.
  - destruct p; discriminate.
  - destruct p; discriminate.
Qed.

(** ** Decimals *)
Lemma is_digit_iff c : is_digit c = true <-> exists d, digit c d.
Proof.
  unfold digit. split.
  - unfold is_digit. destruct c as [b0 b1 b2 b3 b4 b5 b6 b7].
    destruct b0, b1, b2, b3, b4, b5, b6, b7; try discriminate; intros _; simpl; eexists; auto 20.
  - intros (d&H). simpl in H. repeat (destruct H as [H|H]; [injection H; intros; subst; reflexivity|]). destruct H.
Qed.
Lemma digit_val c d : digit c d -> Z.of_N (N_of_ascii c - 48) = d.
Proof.
  unfold digit. simpl. intro H.
  repeat (destruct H as [H|H]; [injection H; intros; subst; reflexivity|]). destruct H.
Qed.
Lemma digit_val_range c d : digit c d -> is_digit c = true.
Proof. intro H. apply is_digit_iff. eauto. Qed.
Lemma digits_val_app s : forall acc c, digits_val acc (s ++ String c "") =
  match digits_val acc s with
  | Some n => if is_digit c then Some (10 * n + (N_of_ascii c - 48))%N else None
  | None => None
  end.
Proof.
  induction s as [|a s IH]; intros acc c; cbn [append digits_val].
  - destruct (is_digit c); reflexivity.
  - destruct (is_digit a); auto.
Qed.
Lemma string_snoc_ind (P : string -> Prop) :
  P "" -> (forall s c, P s -> P (s ++ String c "")) -> forall s, P s.
Proof.
  intros H0 HS s. rewrite <- (string_of_list_ascii_of_string s).
  induction (list_ascii_of_string s) as [|c l IH] using rev_ind; auto.
  assert (E : string_of_list_ascii (l ++ [c]) = string_of_list_ascii l ++ String c "").
  { clear. induction l; simpl; congruence. }
  rewrite E. auto.
Qed.
Lemma digits_numeral s : s <> "" -> forall z,
  ((exists n, digits_val 0 s = Some n /\ Z.of_N n = z) <-> numeral s z).
Proof.
  intros Hs z. split.
  - intros (n&H&<-). revert n H Hs. induction s as [|s c IH] using string_snoc_ind; intros n H Hs; [contradiction|].
    rewrite digits_val_app in H. destruct (digits_val 0 s) as [m|] eqn:D; [|discriminate].
    destruct (is_digit c) eqn:C; [|discriminate]. assert (n = 10 * m + (N_of_ascii c - 48))%N as -> by congruence.
    apply is_digit_iff in C as [d C]. rewrite N2Z.inj_add, N2Z.inj_mul, (digit_val _ _ C).
    destruct s as [|a s].
    + simpl in D. injection D; intros <-. simpl. now constructor.
    + apply num_more; auto. apply IH; auto. discriminate.
  - intro H. clear Hs. induction H as [c d C|s n c d _ (m&Hm&Em) C].
    + simpl. rewrite (proj2 (is_digit_iff c)) by eauto. eexists; split; eauto. now apply digit_val.
    + rewrite digits_val_app, Hm, (proj2 (is_digit_iff c)) by eauto.
      eexists; split; eauto. rewrite N2Z.inj_add, N2Z.inj_mul, (digit_val _ _ C). lia.
Qed.
Lemma numeral_nonneg s n : numeral s n -> (0 <= n)%Z.
Proof.
  assert (D : forall c d, digit c d -> (0 <= d)%Z).
  { intros c d H. apply digit_val in H. lia. }
  induction 1 as [c d H|s n c d _ IH H]; apply D in H; lia.
Qed.
Lemma numeral_head s n : numeral s n -> exists c r d, s = String c r /\ digit c d.
Proof.
  induction 1 as [c d H|s n c d _ (c'&r&d'&->&H) _]; [eauto|].
  exists c', (r ++ String c ""), d'. auto.
Qed.
Lemma numeral_nonempty s n : numeral s n -> s <> "".
Proof. intros H E. apply numeral_head in H as (c&r&d&->&_). discriminate. Qed.
Lemma atoi_iff s z : atoi s = Some z <-> int_literal s z.
Proof.
  assert (R : forall z, int64_ok z = true <-> (- 2 ^ 63 <= z < 2 ^ 63)%Z).
  { intro x. unfold int64_ok. rewrite andb_true_iff, !Z.leb_le. lia. }
  assert (G : forall (neg : bool) r, 
    (match r with
    | EmptyString => None
    | _ => match digits_val 0 r with
           | Some n => let z := if neg then (- Z.of_N n)%Z else Z.of_N n in
                       if int64_ok z then Some z else None
           | None => None
           end
    end = Some z) <-> (- 2 ^ 63 <= z < 2 ^ 63)%Z /\ exists n, numeral r n /\ z = if neg then (- n)%Z else n).
  { intros neg r. destruct r as [|a r].
    - split; [discriminate|]. intros (_&n&H&_). now apply numeral_nonempty in H.
    - assert (N : String a r <> "") by discriminate.
      pose proof (digits_numeral _ N) as D. destruct (digits_val 0 (String a r)) as [n|].
      + cbv zeta. split.
        * destruct (int64_ok (if neg then - Z.of_N n else Z.of_N n)%Z) eqn:E; [|discriminate].
          intro H; injection H; intros <-. split; [now apply R|].
          exists (Z.of_N n). split; auto. apply D; eauto.
        * intros (H1&n'&H2&->). apply D in H2 as (n2&Hn&<-). injection Hn; intros ->.
          apply R in H1. rewrite H1. auto.
      + split; [discriminate|]. intros (_&n&H&_). apply D in H as (m&?&_). discriminate. }
  unfold int_literal. destruct s as [|c r].
  - split; [discriminate|]. intros [_ [H|[(r&H&_)|(r&n&H&_)]]]; try discriminate.
    now apply numeral_nonempty in H.
  - unfold atoi. destruct (Ascii.eqb_spec c "-") as [->|N1].
    + rewrite (G true r). split.
      * intros (H&n&Hn&->). split; auto. right; right. exists r, n. auto.
      * intros [H [Hn|[(r'&E&Hn)|(r'&n&E&Hn&->)]]].
        -- apply numeral_head in Hn as (c&r'&d&E&Hd). 
           assert (c = "-"%char) as -> by congruence. apply digit_val_range in Hd; vm_compute in Hd; discriminate.
        -- discriminate.
        -- injection E; intros <-. eauto.
    + destruct (Ascii.eqb_spec c "+") as [->|N2].
      * rewrite (G false r). split.
        -- intros (H&n&Hn&->). split; auto. right; left. exists r. auto.
        -- intros [H [Hn|[(r'&E&Hn)|(r'&n&E&Hn&->)]]].
           ++ apply numeral_head in Hn as (c&r'&d&E&Hd). 
              assert (c = "+"%char) as -> by congruence. apply digit_val_range in Hd; vm_compute in Hd; discriminate.
           ++ injection E; intros <-. eauto.
           ++ discriminate.
      * rewrite (G false (String c r)). split.
        -- intros (H&n&Hn&->). auto.
        -- intros [H [Hn|[(r'&E&Hn)|(r'&n&E&Hn&->)]]]; [eauto| |]; injection E; intros; subst; contradiction.
Qed.
Lemma int_literal_INF n : ~ int_literal "INF" n.
Proof. intro H. apply atoi_iff in H. discriminate. Qed.
Lemma hydrate_precision_iff attrs z :
  hydrate_precision attrs = z <-> exists p, decimals_attr attrs p /\ z = encoded p.
Proof.
  assert (F : forall p, decimals_attr attrs p -> hydrate_precision attrs = encoded p).
  { intros p H. unfold hydrate_precision. inversion H as [Hv|v n Hv Hn|v Hv Ni Nn|Hn]; subst.
    - apply attr_val_iff in Hv as (a&->&E). rewrite E. reflexivity.
    - apply attr_val_iff in Hv as (a&->&<-). destruct (String.eqb_spec (avalue a) "INF") as [E|_].
      + rewrite E in Hn. now apply int_literal_INF in Hn.
      + apply atoi_iff in Hn. rewrite Hn. reflexivity.
    - apply attr_val_iff in Hv as (a&->&<-). rewrite seqb_false by auto.
      destruct (atoi (avalue a)) as [n|] eqn:E; auto. apply atoi_iff in E. now apply Nn in E.
    - apply find_attr_no in Hn. rewrite Hn. reflexivity. }
  assert (T : exists p, decimals_attr attrs p).
  { destruct (find_attr attrs "decimals") as [a|] eqn:E.
    - assert (V : attr_val attrs "decimals" (avalue a)) by (apply attr_val_iff; eauto).
      destruct (String.eqb_spec (avalue a) "INF") as [I|I].
      + exists PExact. apply dec_inf. congruence.
      + destruct (atoi (avalue a)) as [n|] eqn:A.
        * exists (PDecimals n). apply (dec_num _ (avalue a)); auto. now apply atoi_iff.
        * exists PNone. apply (dec_bad _ (avalue a)); auto. intros n H. apply atoi_iff in H. congruence.
    - exists PNone. apply dec_absent. now apply find_attr_no. }
  split.
  - intros <-. destruct T as [p T]. eauto.
  - intros (p&H&->). auto.
Qed.

(** ** Facts *)
Lemma hydrate_fact_iff q e f : qenv_ok q -> (hydrate_fact q e = Some f <-> is_fact q e f).
Proof.
  intro Hq. unfold hydrate_fact. split.
  - intro H. apply obind_Some in H as (u&G&H). apply oguard_Some, negb_true_iff, orb_false_iff in G as [G1 G2].
    apply String.eqb_neq in G1, G2. apply obind_Some in H as ([href c]&N&H).
    apply found_iff in N; auto. apply obind_Some in H as (ctx&C&H). injection H; intros <-.
    constructor; cbn [fHref fContextRef fID fUnitRef fPrecision fIsNil fXMLInner]; auto.
    + eauto.
    + now apply req_iff.
    + now apply attr_or_empty_iff.
    + now apply attr_or_empty_iff.
    + now apply hydrate_precision_iff.
    + now apply attr_bool_iff.
  - intros [(c&N1&N2&N) C I U P Nl X]. apply obind_Some. exists tt. split.
    { apply oguard_Some, negb_true_iff, orb_false_iff. now rewrite !String.eqb_neq. }
    apply found_iff in N; auto. rewrite N. simpl. apply req_iff in C. rewrite C. simpl.
    apply attr_or_empty_iff in I, U. apply hydrate_precision_iff in P. apply attr_bool_iff in Nl.
    rewrite I, U, P, Nl, <- X. now destruct f.
Qed.

(** ** Units *)
Lemma mk_measure_iff attrs e m : mk_measure attrs e = m <-> is_measure attrs e m.
Proof.
  unfold mk_measure, is_measure. split.
  - intros <-. split; auto. apply xmlns_resolves.
  - intros [R T]. rewrite (resolves_fun _ _ _ _ (xmlns_resolves attrs (etext e)) R), <- T. now destruct m.
Qed.
Lemma hydrate_unit_iff attrs e u : hydrate_unit attrs e = Some u <-> is_unit attrs e u.
Proof.
  unfold hydrate_unit, is_unit. rewrite obind_Some. split.
  - intros (x&G&H). apply oguard_Some, String.eqb_eq in G. split; auto.
    apply obind_Some in H as (id&I&H). apply req_iff in I.
    destruct (un_measure e) as [|m r] eqn:M.
    + destruct (un_divide e) as [|d ds] eqn:D; [discriminate|].
      destruct (dv_den d) as [|[|den dr] dens] eqn:Dd; try discriminate.
      destruct (dv_num d) as [|[|num nr] nums] eqn:Dn; try discriminate.
      injection H; intros <-. split; auto. right.
      exists d, ds, num, nr, nums, den, dr, dens. repeat split; auto; now apply mk_measure_iff.
    + injection H; intros <-. split; auto. left. exists m, r. repeat split; auto. now apply mk_measure_iff.
  - intros (G&I&H). exists tt. split; [now apply oguard_Some, String.eqb_eq|].
    apply req_iff in I. rewrite I. simpl.
    destruct H as [(m&r&->&M&N1&N2)|(d&r&num&rn&nums&den&rd&dens&->&->&->&->&M1&M2&M3)].
    + apply mk_measure_iff in M. rewrite M. f_equal. destruct u; simpl in *; subst; reflexivity.
    + apply mk_measure_iff in M1, M2. rewrite M1, M2. f_equal. destruct u; simpl in *; subst; reflexivity.
Qed.

(** ** Footnote links *)
Lemma attr_is_iff attrs n v u : attr_is attrs n v = Some u <-> attr_val attrs n v.
Proof.
  rewrite attr_val_iff. unfold attr_is. destruct (find_attr attrs n) as [a|].
  - rewrite oguard_Some, String.eqb_eq. split; eauto. intros (b&H&<-). congruence.
  - split; [discriminate|]. intros (b&H&_); discriminate.
Qed.
Lemma hydrate_fn_loc_iff e l : hydrate_fn_loc e = Some l <-> is_fn_loc e l.
Proof.
  unfold hydrate_fn_loc, is_fn_loc. split.
  - intro H. binds H. injection H; intros <-. apply attr_is_iff in E. apply req_iff in E0, E1. auto.
  - intros (H1&H2&H3). apply (attr_is_iff _ _ _ tt) in H1. apply req_iff in H2, H3.
    rewrite H1, H2, H3. now destruct l.
Qed.
Lemma hydrate_footnote_iff e f : hydrate_footnote e = Some f <-> is_footnote e f.
Proof.
  unfold hydrate_footnote, is_footnote. split.
  - intro H. binds H. injection H; intros <-. apply attr_is_iff in E. apply req_iff in E0, E1, E2. auto 10.
  - intros (H1&H2&H3&H4&H5). apply (attr_is_iff _ _ _ tt) in H1. apply req_iff in H2, H3, H4.
    rewrite H1, H2, H3, H4, <- H5. now destruct f.
Qed.
Lemma hydrate_fn_arc_iff e a : hydrate_fn_arc e = Some a <-> is_fn_arc e a.
Proof.
  unfold hydrate_fn_arc, is_fn_arc. change FactFootnoteArcrole with "http://www.xbrl.org/2003/arcrole/fact-footnote".
  split.
  - intro H. binds H. injection H; intros <-. apply attr_is_iff in E, E0. apply req_iff in E1, E2. auto 10.
  - intros (H1&H2&H3&H4&H5). apply (attr_is_iff _ _ _ tt) in H1, H2. apply req_iff in H4, H5.
    rewrite H1, H2, H4, H5, <- H3. now destruct a.
Qed.
Lemma hydrate_footnote_link_iff e l : hydrate_footnote_link e = Some l <-> is_footnote_link e l.
Proof.
  unfold hydrate_footnote_link, is_footnote_link. change ROLELINK with "http://www.xbrl.org/2003/role/link".
  split.
  - intro H. binds H. injection H; intros <-. apply attr_is_iff in E, E0. simpl.
    repeat split; auto.
    + now apply attr_or_empty_iff.
    + apply collect_image. apply hydrate_footnote_iff.
    + apply collect_image. apply hydrate_fn_loc_iff.
    + apply collect_image. apply hydrate_fn_arc_iff.
  - intros (H1&H2&H3&H4&H5&H6). apply (attr_is_iff _ _ _ tt) in H1, H2. rewrite H1, H2. simpl. f_equal.
    apply attr_or_empty_iff in H3.
    assert (F1 : forall x y z, is_footnote x y -> is_footnote x z -> y = z)
      by (intros x y z A B; apply hydrate_footnote_iff in A, B; congruence).
    assert (F2 : forall x y z, is_fn_loc x y -> is_fn_loc x z -> y = z)
      by (intros x y z A B; apply hydrate_fn_loc_iff in A, B; congruence).
    assert (F3 : forall x y z, is_fn_arc x y -> is_fn_arc x z -> y = z)
      by (intros x y z A B; apply hydrate_fn_arc_iff in A, B; congruence).
    destruct l as [t fs ls as']; simpl in *. f_equal; auto.
    + eapply image_of_fun; [exact F1| |exact H4]. apply collect_image. apply hydrate_footnote_iff.
    + eapply image_of_fun; [exact F2| |exact H5]. apply collect_image. apply hydrate_fn_loc_iff.
    + eapply image_of_fun; [exact F3| |exact H6]. apply collect_image. apply hydrate_fn_arc_iff.
Qed.

(** ** Contexts *)
Lemma collectM_image {A B} (f : A -> res (option B)) (R : A -> B -> Prop) l l' :
  (forall x, In x l -> f x <> Panic -> forall y, f x = Ok (Some y) <-> R x y) ->
  (forall x m, In x l -> f x <> Err m) ->
  collectM f l = Ok l' -> image_of R l l'.
Proof.
  revert l'. induction l as [|x t IH]; intros l' HR HE; simpl.
  - intro H; injection H; intros <-. constructor.
  - destruct (f x) as [o|m|] eqn:E; simpl; try discriminate.
    destruct (collectM f t) as [ys|m|] eqn:E2; simpl; try discriminate.
    intro H; injection H; intros <-.
    assert (I : image_of R t ys).
    { apply IH; auto; intros; [apply HR|apply HE]; simpl; auto. }
    assert (HX : forall y, f x = Ok (Some y) <-> R x y) by (apply HR; simpl; auto; congruence).
    destruct o as [z|].
    + apply image_keep; auto. now apply HX.
    + apply image_skip; auto. intros y Hy. apply HX in Hy. congruence.
Qed.
Lemma collectM_no_panic {A B} (f : A -> res (option B)) l :
  collectM f l <> Panic <-> (forall l1 x l2, l = l1 ++ x :: l2 -> (forall y, In y l1 -> exists o, f y = Ok o) -> f x <> Panic)%list.
Proof.
  induction l as [|x t IH]; simpl.
  - split; [|discriminate]. intros _ [|] y l2 H; discriminate.
  - split.
    + intros H l1 y l2 E Ok1. destruct l1 as [|z l1]; simpl in E; injection E; intros; subst.
      * intro P. rewrite P in H. now apply H.
      * destruct (Ok1 z) as [o Ho]; simpl; auto. rewrite Ho in H. simpl in H.
        destruct IH as [IH _]. eapply IH; [|reflexivity|].
        -- intro P. rewrite P in H. now apply H.
        -- intros; apply Ok1; simpl; auto.
    + intros H. destruct (f x) as [o|m|] eqn:E; simpl; try discriminate.
      * destruct IH as [_ IH]. destruct (collectM f t) eqn:C; simpl; try discriminate.
        exfalso. apply IH; auto. intros l1 y l2 -> Ok1. apply (H (x :: l1)%list y l2); auto.
        intros z [<-|Hz]; eauto.
      * intros _. apply (H []%list x t); auto. intros y [].
Qed.
Lemma collectM_total {A B} (f : A -> res (option B)) l :
  (forall x, In x l -> exists o, f x = Ok o) -> exists l', collectM f l = Ok l'.
Proof.
  induction l as [|x t IH]; intro H; simpl; eauto.
  destruct (H x) as [o Ho]; simpl; auto. rewrite Ho. simpl.
  destruct IH as [l' ->]; simpl; eauto. intros; apply H; simpl; auto.
Qed.

Lemma text_of_iff l t : first_text l = t <-> text_of l t.
Proof.
  unfold first_text, text_of. destruct l as [|e r].
  - split; auto. intros [(?&?&?&_)|[_ ->]]; [discriminate|auto].
  - split; [eauto|]. intros [(?&?&H&->)|[H _]]; [|discriminate]. now injection H; intros _ ->.
Qed.

Section Contexts.
  Variables (q : qenv) (tokens : string -> list token) (attrs : list xattr).
  Hypothesis Hq : qenv_ok q.
  Definition content_of (href inner : string) (r : list (string * string) * list tarc) : Prop :=
    hydrate_typed_members q tokens attrs href inner = Ok r.

  Lemma hydrate_explicit_member_iff b e m :
    hydrate_explicit_member b q attrs e = Some m <-> is_explicit q attrs e m.
  Proof.
    unfold hydrate_explicit_member, is_explicit. split.
    - intro H. apply obind_Some in H as (a&A&H). apply obind_Some in H as (u&G&H).
      apply obind_Some in H as ([dr dc]&D&H). apply obind_Some in H as ([mr mc]&M&H).
      injection H; intros <-. simpl. apply resolve_name_iff in D, M; auto.
      repeat split; eauto. apply attr_val_iff. eauto.
    - intros (A&(dc&D)&T&(mc&M)). apply attr_val_iff in A as (a&->&V). simpl. rewrite V in *.
      assert (E : oguard (negb (b && String.eqb (emDimValue m) "")) = Some tt).
      { apply oguard_Some, negb_true_iff. destruct (String.eqb_spec (emDimValue m) "") as [Z|Z].
        - rewrite Z in D. now apply qname_empty in D.
        - apply andb_false_r. }
      rewrite E. simpl. apply resolve_name_iff in D, M; auto. rewrite D, M. simpl. rewrite <- T.
      now destruct m.
  Qed.
  Lemma hydrate_typed_members_no_err href inner m : hydrate_typed_members q tokens attrs href inner <> Err m.
  Proof.
    unfold hydrate_typed_members. destruct (hash_query _ q href) as [[k d]|e|]; try discriminate.
    generalize (TMState [] [] 0 [] (Some d) href). generalize (tokens inner).
    induction l as [|t ts IH]; intro s; simpl; [discriminate|].
    destruct (tm_token q attrs d t s); [auto|discriminate|discriminate].
  Qed.
  Lemma hydrate_typed_member_no_err b e m : hydrate_typed_member b q tokens attrs e <> Err m.
  Proof.
    unfold hydrate_typed_member. match goal with |- match ?x with _ => _ end <> _ => destruct x as [[[v d] c]|] end; [|discriminate].
    pose proof (hydrate_typed_members_no_err d (etext e)) as N.
    destruct (hydrate_typed_members q tokens attrs d (etext e)) as [r|x|]; simpl; try discriminate.
    intros _. now apply (N x).
  Qed.
  Lemma hydrate_typed_member_iff b e m : hydrate_typed_member b q tokens attrs e <> Panic ->
    (hydrate_typed_member b q tokens attrs e = Ok (Some m) <-> is_typed q attrs content_of e m).
  Proof.
    intro NP. unfold hydrate_typed_member, is_typed, content_of in *. split.
    - match goal with |- match ?x with _ => _ end = _ -> _ => destruct x as [[[v dr] dc]|] eqn:X end; [|discriminate].
      apply obind_Some in X as (a&A&H). apply obind_Some in H as (u&G&H).
      apply obind_Some in H as ([dr' dc']&D&H). injection H; intros <- <- <-.
      apply resolve_name_iff in D; auto.
      destruct (hydrate_typed_members q tokens attrs dr' (etext e)) as [[mp ar]|x|] eqn:T; simpl; try discriminate.
      intro E; injection E; intros <-. simpl. repeat split; eauto. apply attr_val_iff; eauto.
    - intros (A&(c&D&TD)&T). apply attr_val_iff in A as (a&A&V). rewrite A. simpl. rewrite V.
      assert (E : oguard (negb (b && String.eqb (tmDimValue m) "")) = Some tt).
      { apply oguard_Some, negb_true_iff. destruct (String.eqb_spec (tmDimValue m) "") as [Z|Z].
        - rewrite Z in D. now apply qname_empty in D.
        - apply andb_false_r. }
      rewrite E. simpl. apply resolve_name_iff in D; auto. rewrite D. simpl. rewrite T. simpl.
      rewrite <- TD. now destruct m.
  Qed.
  Lemma is_explicit_fun e m m' : is_explicit q attrs e m -> is_explicit q attrs e m' -> m = m'.
  Proof. intros A B. apply (hydrate_explicit_member_iff false) in A, B. congruence. Qed.
  Lemma is_typed_fun e m m' : is_typed q attrs content_of e m -> is_typed q attrs content_of e m' -> m = m'.
  Proof.
    intros (A&(c&D&TD)&T) (A'&(c'&D'&TD')&T'). pose proof (attr_val_fun _ _ _ _ A A') as V.
    rewrite <- V in D'. apply resolve_name_iff in D, D'; auto.
    assert (E : (tmDimHref m, c) = (tmDimHref m', c')) by congruence. injection E; intros E1 E2.
    unfold content_of in *. rewrite <- E2 in T'. rewrite T in T'. injection T'; intros.
    destruct m, m'; simpl in *; congruence.
  Qed.
  Lemma hydrate_dim_context_iff b segs d : hydrate_dim_context b q tokens attrs segs <> Panic ->
    (hydrate_dim_context b q tokens attrs segs = Ok d <-> members_of q attrs content_of segs d).
  Proof.
    unfold hydrate_dim_context, members_of. destruct segs as [|s r].
    - intros _. split.
      + intro H; injection H; auto.
      + intros [[_ ->]|(?&?&?&_)]; [auto|discriminate].
    - intro NP.
      destruct (collectM (hydrate_typed_member b q tokens attrs) (sg_typed s)) as [tms|m|] eqn:C.
      2:{ exfalso. clear NP. revert m C. induction (sg_typed s) as [|x t IH]; simpl; [discriminate|]. intro m.
          pose proof (hydrate_typed_member_no_err b x) as NE.
          destruct (hydrate_typed_member b q tokens attrs x) as [o|mm|]; simpl.
          - destruct (collectM _ t); simpl; try discriminate. eauto.
          - intros _. now apply (NE mm).
          - discriminate. }
      2:{ now contradiction NP. }
      assert (I : image_of (is_typed q attrs content_of) (sg_typed s) tms).
      { eapply collectM_image; [| |exact C].
        - intros x _ Hx y. now apply hydrate_typed_member_iff.
        - intros x m _. apply hydrate_typed_member_no_err. }
      simpl. split.
      + intro H; injection H; intros <-. right. exists s, r. simpl. repeat split; auto.
        apply collect_image. apply hydrate_explicit_member_iff.
      + intros [[? _]|(s'&r'&E&I1&I2)]; [discriminate|]. injection E; intros <- <-.
        f_equal. destruct d as [ex ty]; simpl in *. f_equal.
        * eapply image_of_fun; [exact is_explicit_fun| |exact I1].
          apply collect_image. apply hydrate_explicit_member_iff.
        * eapply image_of_fun; [exact is_typed_fun| |exact I2]. exact I.
  Qed.
  Lemma hydrate_dim_context_no_err b segs m : hydrate_dim_context b q tokens attrs segs <> Err m.
  Proof.
    unfold hydrate_dim_context. destruct segs as [|s r]; [discriminate|].
    assert (N : forall m, collectM (hydrate_typed_member b q tokens attrs) (sg_typed s) <> Err m).
    { induction (sg_typed s) as [|x t IH]; intro m'; simpl; [discriminate|].
      pose proof (hydrate_typed_member_no_err b x) as NE.
      destruct (hydrate_typed_member b q tokens attrs x) as [o|mm|]; simpl; try discriminate.
      - destruct (collectM _ t) as [|e|]; simpl; try discriminate. intros _. now apply (IH e).
      - intros _. now apply (NE mm). }
    destruct (collectM _ _) as [|e|]; simpl; try discriminate. intros _. now apply (N e).
  Qed.
  Lemma hydrate_context_no_err e m : hydrate_context q tokens attrs e <> Err m.
  Proof.
    unfold hydrate_context. destruct (negb _); [discriminate|]. destruct (req _ _); [|discriminate].
    destruct (cx_entity e) as [|en ens]; [discriminate|]. destruct (en_identifier en) as [|idt idts]; [discriminate|].
    destruct (String.eqb _ _); [discriminate|]. destruct (find_attr _ _); [|discriminate].
    pose proof (hydrate_dim_context_no_err false (en_segment en)) as N1.
    pose proof (hydrate_dim_context_no_err true (cx_scenario e)) as N2.
    destruct (hydrate_dim_context false _ _ _ _) as [|msg|]; simpl; try discriminate; [|intros _; now apply (N1 msg)].
    destruct (hydrate_dim_context true _ _ _ _) as [|msg|]; simpl; try discriminate; [|intros _; now apply (N2 msg)].
    match goal with |- (let (_, _) := ?X in _) <> _ => destruct X as [? [? ?]] end; discriminate.
  Qed.
  Lemma period_iff e : forall i s n,
    match cx_period e with
    | [] => ("", ("", ""))
    | p :: _ => (first_text (pe_instant p),
                 match pe_start p, pe_end p with
                 | s :: _, n :: _ => (etext s, etext n)
                 | _, _ => ("", "")
                 end)
    end = (i, (s, n)) <-> period_of (cx_period e) i s n.
  Proof.
    intros i s n. destruct (cx_period e) as [|p r].
    - split.
      + intro H; injection H; intros <- <- <-. constructor.
      + inversion 1; reflexivity.
    - destruct (pe_start p) as [|a ra] eqn:S, (pe_end p) as [|b rb] eqn:N; split;
        try (intro H; injection H; intros <- <- <-; (eapply per_duration; [now apply text_of_iff|eassumption|eassumption]) ||
             (apply per_instant; [now apply text_of_iff|auto]));
        inversion 1 as [|? ? ? ? ? ? ? T S' N'|? ? ? T SN]; subst; apply text_of_iff in T; rewrite T;
        try congruence; try reflexivity.
      * destruct SN; congruence.
  Qed.
  Lemma hydrate_context_iff e c : hydrate_context q tokens attrs e <> Panic ->
    (hydrate_context q tokens attrs e = Ok (Some c) <-> is_context q attrs content_of e c).
  Proof.
    unfold hydrate_context. intro NP.
    destruct (String.eqb_spec (nspace (cx_name e)) XBRLI) as [S|S]; simpl in *.
    2:{ split; [discriminate|]. intros [H _ _ _ _]. contradiction. }
    destruct (req (cx_attrs e) "id") as [id|] eqn:I.
    2:{ split; [discriminate|]. intros [_ H _ _ _]. apply req_iff in H. congruence. }
    destruct (cx_entity e) as [|en ens] eqn:En; [contradiction|].
    destruct (en_identifier en) as [|idt idts] eqn:Id.
    { split; [discriminate|]. intros [_ _ (en'&ens'&idt&idts&E&H&_) _ _]. rewrite En in E. injection E; intros; subst. congruence. }
    destruct (String.eqb_spec (etext idt) "") as [T|T].
    { split; [discriminate|]. intros [_ _ (en'&ens'&idt'&idts'&E&H&N&_) _ _].
      rewrite En in E. injection E; intros; subst en' ens'. rewrite Id in H. injection H; intros; subst. contradiction. }
    destruct (find_attr (eattrs idt) "scheme") as [a|] eqn:Sc.
    2:{ split; [discriminate|]. intros [_ _ (en'&ens'&idt'&idts'&E&H&N&_&A&_) _ _].
        rewrite En in E. injection E; intros; subst en' ens'. rewrite Id in H. injection H; intros; subst.
        apply attr_val_iff in A as (b&Hb&_). congruence. }
    destruct (hydrate_dim_context false q tokens attrs (en_segment en)) as [sg|m|] eqn:Sg;
      [|now apply hydrate_dim_context_no_err in Sg|now contradiction NP].
    simpl in *.
    destruct (hydrate_dim_context true q tokens attrs (cx_scenario e)) as [sn|m|] eqn:Sn;
      [|now apply hydrate_dim_context_no_err in Sn|now contradiction NP].
    simpl in *. clear NP.
    assert (Hsg : forall d, Ok sg = Ok d <-> members_of q attrs content_of (en_segment en) d).
    { intro d. rewrite <- Sg. apply hydrate_dim_context_iff. congruence. }
    assert (Hsn : forall d, Ok sn = Ok d <-> members_of q attrs content_of (cx_scenario e) d).
    { intro d. rewrite <- Sn. apply hydrate_dim_context_iff. congruence. }
    pose proof (period_iff e) as HP.
    match type of HP with forall i s n, ?X = _ <-> _ => destruct X as [i [st nd]] eqn:P end. split.
    - intro H; injection H; intros <-. constructor; simpl.
      + exact S.
      + now apply req_iff.
      + exists en, ens, idt, idts. repeat split; auto.
        * apply attr_val_iff; eauto.
        * now apply Hsg.
      + now apply HP.
      + now apply Hsn.
    - intros [_ H1 (en'&ens'&idt'&idts'&E1&E2&_&E3&E4&E5) H2 H3].
      rewrite En in E1. injection E1; intros; subst en' ens'. rewrite Id in E2. injection E2; intros; subst idt' idts'.
      apply attr_val_iff in E4 as (b&Hb&Vb). apply req_iff in H1.
      apply Hsg in E5. apply Hsn in H3. apply HP in H2. injection E5; intros. injection H3; intros.
      injection H2; intros. rewrite Sc in Hb. injection Hb; intros. rewrite I in H1. injection H1; intros.
      destruct c; simpl in *. congruence.
  Qed.
End Contexts.

(** ** Typed members *)
Section NodeInd.
  Variable P : node -> Prop.
  Hypotheses (HT : forall s, P (NText s)) (HO : P NOther)
             (HE : forall n kids, Forall P kids -> P (NElem n kids)).
  Fixpoint node_ind' (t : node) : P t :=
    match t with
    | NText s => HT s
    | NOther => HO
    | NElem n kids => HE n kids ((fix go l : Forall P l :=
        match l with [] => Forall_nil _ | x :: r => Forall_cons x (node_ind' x) (go r) end) kids)
    end.
End NodeInd.

Fixpoint elems (t : node) : list xname :=
  match t with NElem n kids => n :: flat_map elems kids | _ => [] end.
Fixpoint ftexts (href : xname -> string) (p : string) (t : node) : list (string * string) :=
  match t with
  | NText s => [(p, s)]
  | NOther => []
  | NElem n kids => flat_map (ftexts href (href n)) kids
  end.
(** arcs from each href to the next one *)
Fixpoint chain (k : nat) (p : string) (hs : list string) : list tarc :=
  match hs with
  | [] => []
  | h :: r => TArc (f64_of_nat (S k)) p h :: chain (S k) h r
  end.
Definition put (m : list (string * string)) (kv : string * string) : list (string * string) :=
  let str := trim_space (snd kv) in if String.eqb str "" then m else sset (fst kv) str m.

Definition last_of {A} (p : A) (l : list A) : A := fold_left (fun _ x => x) l p.
Lemma last_of_app {A} (p : A) l1 l2 : last_of p (l1 ++ l2) = last_of (last_of p l1) l2.
Proof. apply fold_left_app. Qed.
Lemma chain_app k p l1 l2 :
  chain k p (l1 ++ l2) = (chain k p l1 ++ chain (k + length l1) (last_of p l1) l2)%list.
Proof.
  revert k p; induction l1 as [|x l1 IH]; intros k p; simpl.
  - now rewrite Nat.add_0_r.
  - rewrite IH. replace (k + S (length l1))%nat with (S k + length l1)%nat by lia. reflexivity.
Qed.

Section Typed.
  Variables (q : qenv) (attrs : list xattr) (dimension : concept) (href : xname -> string).
  Hypothesis Hq : qenv_ok q.
  Definition names_elem (n : xname) : Prop :=
    exists c, qname_names q attrs (nspace n ++ ":" ++ nlocal n) (href n) c.
  Definition names_prev (p : string) (o : option concept) : Prop :=
    exists c, o = Some c /\ names q (nspace (cXMLName c)) (nlocal (cXMLName c)) p c.
  Definition top (st : list (option concept)) : option concept :=
    match st with x :: _ => x | [] => Some dimension end.
  Definition after (p : string) (ts : list node) (s : tm_state) : tm_state :=
    let hs := map href (flat_map elems ts) in
    TMState (fold_left put (flat_map (ftexts href p) ts) (ts_map s))
            (ts_arcs s ++ chain (ts_order s) (ts_prevHref s) hs)
            (ts_order s + length hs) (ts_stack s) (ts_prev s) (last_of (ts_prevHref s) hs).

  Lemma tm_node t : forall p rest s,
    (forall n, In n (elems t) -> names_elem n) ->
    names_prev p (ts_prev s) -> ts_prev s = top (ts_stack s) ->
    tm_loop q attrs dimension (node_tokens t ++ rest) s = tm_loop q attrs dimension rest (after p [t] s).
  Proof.
    induction t as [txt| |n kids IH] using node_ind'; intros p rest s HN HP HT.
    - simpl. destruct HP as (c&Hc&Hn). unfold after, put. simpl.
      destruct (String.eqb (trim_space txt) "").
      + rewrite app_nil_r, Nat.add_0_r. now destruct s.
      + rewrite Hc. apply names_iff in Hn; auto. rewrite Hn, app_nil_r, Nat.add_0_r. reflexivity.
    - simpl. unfold after. simpl. rewrite app_nil_r, Nat.add_0_r. now destruct s.
    - destruct (HN n) as (c&nm&R&Sp&Nm); [simpl; auto|].
      assert (Kids : forall ks, Forall (fun t => forall p rest s,
                (forall n, In n (elems t) -> names_elem n) ->
                names_prev p (ts_prev s) -> ts_prev s = top (ts_stack s) ->
                tm_loop q attrs dimension (node_tokens t ++ rest) s =
                tm_loop q attrs dimension rest (after p [t] s)) ks ->
              (forall n, In n (flat_map elems ks) -> names_elem n) ->
              forall p rest s, names_prev p (ts_prev s) -> ts_prev s = top (ts_stack s) ->
              tm_loop q attrs dimension (flat_map node_tokens ks ++ rest) s =
              tm_loop q attrs dimension rest (after p ks s)).
      { clear. induction 1 as [|t ks Ht _ IHks]; intros HN p rest s HP HT.
        - unfold after. simpl. rewrite app_nil_r, Nat.add_0_r. now destruct s.
        - simpl. rewrite <- app_assoc, (Ht p) by (auto; intros; apply HN; simpl; apply in_or_app; auto).
          rewrite (IHks) with (p := p); auto.
          2:{ intros m Hm; apply HN; simpl; apply in_or_app; auto. }
          f_equal. unfold after. cbn [ts_map ts_arcs ts_order ts_stack ts_prev ts_prevHref flat_map].
          rewrite !app_nil_r, !map_app, !app_length, chain_app, last_of_app, fold_left_app, app_assoc.
          f_equal. lia. }
      cbn [node_tokens app tm_loop tm_token].
      rewrite (resolves_fun _ _ _ _ (xmlns_resolves attrs _) R), seqb_false by auto.
      pose proof Nm as Nm'. apply names_iff in Nm'; auto. rewrite Nm'.
      rewrite <- app_assoc, (Kids kids IH) with (p := href n).
      2:{ intros m Hm. apply HN. simpl. auto. }
      2:{ exists c. split; auto. simpl. rewrite (names_concept _ _ _ _ _ Nm). exact Nm. }
      2:{ reflexivity. }
      cbn [app tm_loop tm_token after ts_stack].
      rewrite (resolves_fun _ _ _ _ (xmlns_resolves attrs _) R), (names_concept _ _ _ _ _ Nm). cbn [nlocal nspace].
      rewrite !seqb_refl. cbn [negb andb]. f_equal. unfold after.
      cbn [ts_map ts_arcs ts_order ts_stack ts_prev ts_prevHref flat_map ftexts elems map app chain length].
      rewrite !app_nil_r. fold (top (ts_stack s)). rewrite HT, <- app_assoc. cbn [app]. f_equal. lia.
  Qed.
  Lemma tm_forest ks : (forall n, In n (flat_map elems ks) -> names_elem n) ->
    forall p rest s, names_prev p (ts_prev s) -> ts_prev s = top (ts_stack s) ->
    tm_loop q attrs dimension (forest_tokens ks ++ rest) s = tm_loop q attrs dimension rest (after p ks s).
  Proof.
    unfold forest_tokens. induction ks as [|t ks IH]; intros HN p rest s HP HT.
    - unfold after. simpl. rewrite app_nil_r, Nat.add_0_r. now destruct s.
    - simpl. rewrite <- app_assoc, (tm_node t p) by (auto; intros; apply HN; simpl; apply in_or_app; auto).
      rewrite IH with (p := p); auto.
      2:{ intros m Hm; apply HN; simpl; apply in_or_app; auto. }
      f_equal. unfold after. cbn [ts_map ts_arcs ts_order ts_stack ts_prev ts_prevHref flat_map].
      rewrite !app_nil_r, !map_app, !app_length, chain_app, last_of_app, fold_left_app, app_assoc.
      f_equal. lia.
  Qed.
End Typed.

Lemma hydrate_typed_members_spec q tokens attrs dimHref inner href ks d hd k order :
  qenv_ok q -> hash_query order q dimHref = Ok (k, d) ->
  names q (nspace (cXMLName d)) (nlocal (cXMLName d)) hd d ->
  tokens inner = forest_tokens ks ->
  (forall n, In n (flat_map elems ks) -> names_elem q attrs href n) ->
  hydrate_typed_members q tokens attrs dimHref inner =
  Ok (fold_left put (flat_map (ftexts href hd) ks) [], chain 0 dimHref (map href (flat_map elems ks))).
Proof.
  intros Hq Hh Hd HT HN. unfold hydrate_typed_members.
  assert (H2 : exists k', hash_query (q_namespaces q) q dimHref = Ok (k', d)).
  { apply hash_query_iff in Hh; auto. destruct Hh as (b&fr&f&cs&?&?&?&?&?&?&?&?).
    exists (namespace_of (q_namespaces q) b). apply hash_query_iff; auto. exists b, fr, f, cs. auto 10. }
  destruct H2 as [k' ->]. rewrite HT, <- (app_nil_r (forest_tokens ks)).
  rewrite (tm_forest q attrs d href Hq ks HN hd); auto. exists d. auto.
Qed.

(** the tables of nested elements and texts exist and are unique *)
Lemma ftexts_texts href t : forall p l, texts href p t l <-> l = ftexts href p t.
Proof.
  induction t as [txt| |n kids IH] using node_ind'; intros p l; simpl.
  - split; [now inversion 1|intros ->; constructor].
  - split; [now inversion 1|intros ->; constructor].
  - assert (L : forall ks, Forall (fun t => forall p l, texts href p t l <-> l = ftexts href p t) ks ->
             forall p l, texts_list href p ks l <-> l = flat_map (ftexts href p) ks).
    { clear. induction 1 as [|t ks Ht _ IH]; intros p l; simpl.
      - split; [now inversion 1|intros ->; constructor].
      - split.
        + inversion 1 as [|? ? ? l1 l2 H1 H2]; subst. apply Ht in H1. apply IH in H2. congruence.
        + intros ->. constructor; [now apply Ht|now apply IH]. }
    split.
    + inversion 1; subst. now apply L.
    + intros ->. constructor. now apply L.
Qed.
Lemma ftexts_texts_list href ks : forall p l, texts_list href p ks l <-> l = flat_map (ftexts href p) ks.
Proof.
  induction ks as [|t ks IH]; intros p l; simpl.
  - split; [now inversion 1|intros ->; constructor].
  - split.
    + inversion 1 as [|? ? ? l1 l2 H1 H2]; subst. apply ftexts_texts in H1. apply IH in H2. congruence.
    + intros ->. constructor; [now apply ftexts_texts|now apply IH].
Qed.
Fixpoint fnested (href : xname -> string) (p : string) (t : node) : list (string * string) :=
  match t with
  | NElem n kids => (p, href n) :: flat_map (fnested href (href n)) kids
  | _ => []
  end.
Lemma fnested_nested href t : forall p l, nested href p t l <-> l = fnested href p t.
Proof.
  induction t as [txt| |n kids IH] using node_ind'; intros p l; simpl.
  - split; [now inversion 1|intros ->; constructor].
  - split; [now inversion 1|intros ->; constructor].
  - assert (L : forall ks, Forall (fun t => forall p l, nested href p t l <-> l = fnested href p t) ks ->
             forall p l, nested_list href p ks l <-> l = flat_map (fnested href p) ks).
    { clear. induction 1 as [|t ks Ht _ IH]; intros p l; simpl.
      - split; [now inversion 1|intros ->; constructor].
      - split.
        + inversion 1 as [|? ? ? l1 l2 H1 H2]; subst. apply Ht in H1. apply IH in H2. congruence.
        + intros ->. constructor; [now apply Ht|now apply IH]. }
    split.
    + inversion 1; subst. f_equal. now apply L.
    + intros ->. constructor. now apply L.
Qed.
Lemma fnested_nested_list href ks : forall p l, nested_list href p ks l <-> l = flat_map (fnested href p) ks.
Proof.
  induction ks as [|t ks IH]; intros p l; simpl.
  - split; [now inversion 1|intros ->; constructor].
  - split.
    + inversion 1 as [|? ? ? l1 l2 H1 H2]; subst. apply fnested_nested in H1. apply IH in H2. congruence.
    + intros ->. constructor; [now apply fnested_nested|now apply IH].
Qed.
Lemma fnested_targets href t p : map snd (fnested href p t) = map href (elems t).
Proof.
  revert p. induction t as [txt| |n kids IH] using node_ind'; intro p; simpl; auto. f_equal.
  generalize (href n). induction IH as [|t ks Ht _ IHk]; intro p'; simpl; auto.
  now rewrite !map_app, Ht, IHk.
Qed.
Lemma fnested_targets_list href ks p : map snd (flat_map (fnested href p) ks) = map href (flat_map elems ks).
Proof.
  induction ks as [|t ks IH]; simpl; auto. now rewrite !map_app, fnested_targets, IH.
Qed.
Lemma chain_targets k p hs : map taTo (chain k p hs) = hs.
Proof. revert k p; induction hs; intros; simpl; congruence. Qed.
Lemma chain_orders k p hs : map taOrder (chain k p hs) = map f64_of_nat (seq (S k) (length hs)).
Proof. revert k p; induction hs; intros; simpl; congruence. Qed.
Lemma chain_sources k p hs : map taFrom (chain k p hs) = removelast (p :: hs).
Proof.
  revert k p; induction hs as [|h hs IH]; intros; simpl; auto. rewrite IH. destruct hs; auto.
Qed.

(** in a linear forest, document order is nesting order *)
Definition pairs_of (l : list tarc) : list (string * string) := map (fun a => (taFrom a, taTo a)) l.
Lemma no_elem_nil href ks p :
  filter is_elem ks = [] -> flat_map elems ks = [] /\ flat_map (fnested href p) ks = [].
Proof.
  induction ks as [|t ks IH]; simpl; auto. destruct t; simpl; try discriminate; auto.
Qed.
Lemma linear_chain href t : forall p k, linear_node t ->
  pairs_of (chain k p (map href (elems t))) = fnested href p t.
Proof.
  induction t as [txt| |n kids IH] using node_ind'; intros p k L; simpl; auto.
  f_equal. destruct L as [L1 L2].
  generalize dependent (href n). generalize (S k). 
  induction IH as [|t ks Ht _ IHk]; intros j h; simpl; auto.
  simpl in L1, L2. destruct L2 as [Lt L2]. destruct t as [s|m kk|]; cbn [is_elem] in L1.
  - simpl. apply IHk; auto.
  - cbn [length] in L1.
    destruct (no_elem_nil href ks h) as [E1 E2].
    { apply length_zero_iff_nil. lia. }
    rewrite E1, E2, !app_nil_r. now apply Ht.
  - simpl. apply IHk; auto.
Qed.
Lemma linear_chain_list href ks : forall p k, linear ks ->
  pairs_of (chain k p (map href (flat_map elems ks))) = flat_map (fnested href p) ks.
Proof.
  intros p k [L1 L2]. revert k. induction ks as [|t ks IH]; intro k; simpl; auto.
  simpl in L1, L2. destruct L2 as [Lt L2]. destruct t as [s|m kk|]; cbn [is_elem] in L1.
  - simpl. apply IH; auto.
  - cbn [length] in L1.
    destruct (no_elem_nil href ks p) as [E1 E2].
    { apply length_zero_iff_nil. lia. }
    rewrite E1, E2, !app_nil_r. now apply linear_chain.
  - simpl. apply IH; auto.
Qed.

(** ** Trimming *)
(** deciding [trimmed] *)
Definition is_space (c : ascii) : bool :=
  mem Ascii.eqb c ["009"; "010"; "011"; "012"; "013"; " "]%char.
Fixpoint trim_left (s : string) : string :=
  match s with
  | String c r => if is_space c then trim_left r else s
  | "" => ""
  end.
Fixpoint trim_right (s : string) : string :=
  match s with
  | String c r => match trim_right r with
                  | "" => if is_space c then "" else String c ""
                  | r' => String c r'
                  end
  | "" => ""
  end.
Definition trim_xml (s : string) : string := trim_right (trim_left s).

Lemma is_space_iff c : is_space c = true <-> ws c.
Proof. unfold is_space, ws. apply mem_In. apply Ascii.eqb_eq. Qed.
Lemma all_ws_cons c s : all_ws (String c s) <-> ws c /\ all_ws s.
Proof.
  unfold all_ws. split.
  - intro H. split; [apply H; simpl; tauto|]. intros d Hd. apply H. simpl. tauto.
  - intros [H1 H2] d Hd. simpl in Hd. destruct (Ascii.ascii_dec c d) as [->|N]; auto.
Qed.
Lemma all_ws_nil : all_ws "".
Proof. intros c H. exfalso; apply H. exact I. Qed.
Lemma trim_left_spec s : exists a, s = a ++ trim_left s /\ all_ws a /\
  (forall c r, trim_left s = String c r -> ~ ws c).
Proof.
  induction s as [|c s (a&E&W&H)]; simpl.
  - exists "". repeat split; auto using all_ws_nil. discriminate.
  - destruct (is_space c) eqn:S.
    + apply is_space_iff in S. exists (String c a). simpl. repeat split; auto.
      * congruence.
      * now apply all_ws_cons.
    + exists "". simpl. repeat split; auto using all_ws_nil.
      intros d r E' W'. injection E'; intros; subst. apply is_space_iff in W'. congruence.
Qed.
Lemma trim_right_spec s : exists b, s = trim_right s ++ b /\ all_ws b /\
  (forall c r, trim_right s = r ++ String c "" -> ~ ws c).
Proof.
  induction s as [|c s (b&E&W&H)]; simpl.
  - exists "". repeat split; auto using all_ws_nil. intros c [|] D; discriminate.
  - destruct (trim_right s) as [|d t] eqn:T.
    + simpl in E. destruct (is_space c) eqn:S.
      * apply is_space_iff in S. exists (String c b). simpl. repeat split.
        -- congruence.
        -- now apply all_ws_cons.
        -- intros d [|] D; discriminate.
      * exists b. simpl. repeat split; auto; [congruence|].
        intros d r E' W'. assert (d = c) as ->.
        { destruct r as [|x r]; simpl in E'; [congruence|]. destruct r; discriminate. }
        apply is_space_iff in W'. congruence.
    + exists b. simpl. repeat split; auto.
      * f_equal. exact E.
      * intros x r E'. destruct r as [|y r]; simpl in E'; [discriminate|].
        injection E'; intros E2 _. eapply H; eauto.
Qed.
Lemma trimmed_trim s : trimmed s (trim_xml s).
Proof.
  unfold trimmed, trim_xml. destruct (trim_left_spec s) as (a&E1&W1&H1).
  destruct (trim_right_spec (trim_left s)) as (b&E2&W2&H2).
  exists a, b. split; [|repeat split; auto].
  - rewrite E1 at 1. now rewrite E2 at 1.
  - intros c r E. rewrite E in E2. simpl in E2. eauto.
Qed.
Lemma trim_left_ws a x : all_ws a -> trim_left (a ++ x) = trim_left x.
Proof.
  induction a as [|c a IH]; auto. intro W. apply all_ws_cons in W as [W1 W2]. simpl.
  apply is_space_iff in W1. rewrite W1. auto.
Qed.
Lemma trim_right_ws x b : all_ws b -> trim_right (x ++ b) = trim_right x.
Proof.
  intro W. induction x as [|c x IH]; simpl.
  - induction b as [|c b IHb]; auto. apply all_ws_cons in W as [W1 W2]. simpl. rewrite IHb by auto.
    apply is_space_iff in W1. now rewrite W1.
  - now rewrite IH.
Qed.
Lemma trim_right_id t : (forall c r, t = r ++ String c "" -> ~ ws c) -> trim_right t = t.
Proof.
  induction t as [|t c _] using string_snoc_ind; auto. intro H.
  specialize (H c t eq_refl). induction t as [|a t IH]; simpl.
  - destruct (is_space c) eqn:S; auto. apply is_space_iff in S. contradiction.
  - rewrite IH. destruct t; reflexivity.
Qed.
Lemma trimmed_iff s t : trimmed s t <-> trim_xml s = t.
Proof.
  split; [|intros <-; apply trimmed_trim].
  intros (a&b&->&Wa&Wb&H1&H2). unfold trim_xml. rewrite trim_left_ws by auto.
  destruct t as [|c t].
  - simpl. destruct (trim_left_spec b) as (x&E&_&H). 
    assert (trim_left b = "") as ->; auto.
    rewrite <- (append_nil_r b), trim_left_ws; auto.
  - cbn [append trim_left]. destruct (is_space c) eqn:S.
    + apply is_space_iff in S. exfalso. eapply H1; eauto.
    + change (String c (t ++ b)) with (String c t ++ b). rewrite trim_right_ws by auto. now apply trim_right_id.
Qed.

Lemma spaces_white w : In w spaces <-> white_space w.
Proof.
  unfold white_space. split.
  - intro H.
    assert (M : forall n, (128 <= n <= 138 \/ n = 168 \/ n = 169 \/ n = 175)%nat -> w = utf8 [226; 128; n]%nat ->
      exists n, w = utf8 [226; 128; n]%nat /\ (128 <= n <= 138 \/ n = 168 \/ n = 169 \/ n = 175)%nat) by eauto.
    repeat (destruct H as [<-|H]; [
      first [ left; vm_compute; tauto
            | right; first [apply (M 128%nat); [lia|reflexivity] | apply (M 129%nat); [lia|reflexivity]
              | apply (M 130%nat); [lia|reflexivity] | apply (M 131%nat); [lia|reflexivity]
              | apply (M 132%nat); [lia|reflexivity] | apply (M 133%nat); [lia|reflexivity]
              | apply (M 134%nat); [lia|reflexivity] | apply (M 135%nat); [lia|reflexivity]
              | apply (M 136%nat); [lia|reflexivity] | apply (M 137%nat); [lia|reflexivity]
              | apply (M 138%nat); [lia|reflexivity] | apply (M 168%nat); [lia|reflexivity]
              | apply (M 169%nat); [lia|reflexivity] | apply (M 175%nat); [lia|reflexivity] ] ] |]).
    destruct H.
  - intros [H|(n&->&H)].
    + simpl in H. repeat (destruct H as [<-|H]; [vm_compute; tauto|]). destruct H.
    + assert (C : In n [128; 129; 130; 131; 132; 133; 134; 135; 136; 137; 138; 168; 169; 175]%nat) by (simpl; lia).
      clear H. simpl in C. repeat (destruct C as [<-|C]; [vm_compute; tauto|]). destruct C.
Qed.
Lemma strip_prefix_iff p s r : strip_prefix p s = Some r <-> s = p ++ r.
Proof.
  revert s. induction p as [|a p IH]; intros s; cbn [strip_prefix append].
  - split; congruence.
  - destruct s as [|b s]; [split; discriminate|]. destruct (Ascii.eqb_spec a b) as [->|N].
    + rewrite IH. split; congruence.
    + split; congruence.
Qed.
Lemma first_stripped_Some ps s r : first_stripped ps s = Some r -> exists p, In p ps /\ s = p ++ r.
Proof.
  induction ps as [|p ps IH]; cbn [first_stripped]; [discriminate|].
  destruct (strip_prefix p s) as [x|] eqn:E.
  - intro H. injection H; intros <-. apply strip_prefix_iff in E. exists p. simpl. auto.
  - intro H. apply IH in H as (q&I&->). exists q. simpl. auto.
Qed.
Lemma first_stripped_None ps s : first_stripped ps s = None -> forall p r, In p ps -> s <> p ++ r.
Proof.
  induction ps as [|p ps IH]; cbn [first_stripped]; [intros _ p r []|].
  destruct (strip_prefix p s) as [x|] eqn:E; [discriminate|].
  intros H q r [<-|I]; eauto. intro Q. apply strip_prefix_iff in Q. congruence.
Qed.
Inductive made_of (ps : list string) : string -> Prop :=
| mo_nil : made_of ps ""
| mo_cons w s : In w ps -> made_of ps s -> made_of ps (w ++ s).
Lemma strip_all_spec ps : ~ In "" ps -> forall fuel s, (String.length s <= fuel)%nat ->
  exists a, s = a ++ strip_all fuel ps s /\ made_of ps a /\ forall p r, In p ps -> strip_all fuel ps s <> p ++ r.
Proof.
  intro NE. induction fuel as [|fuel IH]; intros s L; cbn [strip_all].
  - exists "". destruct s; [|simpl in L; lia]. split; [reflexivity|]. split; [constructor|].
    intros p r I E. destruct p; [contradiction|discriminate].
  - destruct (first_stripped ps s) as [r|] eqn:F.
    + apply first_stripped_Some in F as (p&I&->).
      destruct (IH r) as (a&E&M&N).
      { rewrite slength_app in L. destruct p; [contradiction|]. simpl in L. lia. }
      exists (p ++ a). split; [rewrite append_assoc; congruence|]. split; auto. now constructor.
    + exists "". split; [reflexivity|]. split; [constructor|]. eauto using first_stripped_None.
Qed.
Lemma srev_onto_app s acc : srev_onto s acc = srev s ++ acc.
Proof.
  unfold srev. revert acc. induction s as [|c s IH]; intro acc; cbn [srev_onto]; auto.
  rewrite IH, (IH (String c "")), append_assoc. reflexivity.
Qed.
Lemma srev_cons c s : srev (String c s) = srev s ++ String c "".
Proof. unfold srev at 1. cbn [srev_onto]. apply srev_onto_app. Qed.
Lemma srev_app a b : srev (a ++ b) = srev b ++ srev a.
Proof.
  induction a as [|c a IH]; [cbn [append]; now rewrite append_nil_r|].
  cbn [append]. rewrite !srev_cons, IH, append_assoc. reflexivity.
Qed.
Lemma srev_invol s : srev (srev s) = s.
Proof. induction s as [|c s IH]; auto. rewrite srev_cons, srev_app, IH. reflexivity. Qed.
Lemma made_of_app ps a b : made_of ps a -> made_of ps b -> made_of ps (a ++ b).
Proof. induction 1 as [|w s I _ IH]; auto. intro M. rewrite append_assoc. constructor; auto. Qed.
Lemma made_of_rev ps s : made_of (map srev ps) s -> made_of ps (srev s).
Proof.
  induction 1 as [|w s I _ IH]; [constructor|]. rewrite srev_app. apply made_of_app; auto.
  apply in_map_iff in I as (x&<-&I). rewrite srev_invol. rewrite <- (append_nil_r x). constructor; auto. constructor.
Qed.
Lemma made_of_white s : made_of spaces s -> all_white s.
Proof. induction 1; constructor; auto. now apply spaces_white. Qed.
Lemma spaces_ne : ~ In "" spaces.
Proof. intro H. vm_compute in H. repeat (destruct H as [H|H]; [discriminate|]). destruct H. Qed.
Lemma rspaces_ne : ~ In "" (map srev spaces).
Proof. intro H. vm_compute in H. repeat (destruct H as [H|H]; [discriminate|]). destruct H. Qed.
Lemma trim_spec s : trimmed_text s (trim_space s).
Proof.
  unfold trim_space. set (l := strip_all (String.length s) spaces s).
  destruct (strip_all_spec spaces spaces_ne (String.length s) s (le_n _)) as (a&E&M&N). fold l in E, N.
  destruct (strip_all_spec (map srev spaces) rspaces_ne (String.length l) (srev l)) as (b&E2&M2&N2).
  { assert (H : forall x, String.length (srev x) = String.length x).
    { induction x as [|c x IH]; auto. rewrite srev_cons, slength_app, IH. simpl. lia. }
    rewrite H. auto. }
  set (t := strip_all _ _ (srev l)) in *.
  assert (L : l = srev t ++ srev b) by (rewrite <- srev_app, <- E2; symmetry; apply srev_invol).
  exists a, (srev b). split; [congruence|]. split; [now apply made_of_white|].
  split; [apply made_of_white, made_of_rev, M2|]. split.
  - intros w r W Q. apply spaces_white in W. apply (N w (r ++ srev b) W). rewrite L, Q, append_assoc. reflexivity.
  - intros w r W Q. apply spaces_white in W. apply (N2 (srev w) (srev r)).
    + now apply in_map.
    + rewrite <- srev_app, <- Q. symmetry. apply srev_invol.
Qed.

(** white space at the ends is removed in one way only *)
Definition prefixes (p s : string) : bool := match strip_prefix p s with Some _ => true | None => false end.
Definition prefix_free (ps : list string) : bool :=
  forallb (fun p => forallb (fun p' => negb (prefixes p p') || String.eqb p p') ps) ps.
Lemma prefix_free_inj ps p p' x x' : prefix_free ps = true -> In p ps -> In p' ps -> p ++ x = p' ++ x' -> p = p'.
Proof.
  intros F I I' E. unfold prefix_free in F. rewrite forallb_forall in F.
  assert (G : forall q q', In q ps -> In q' ps -> prefixes q q' = true -> q = q').
  { intros q q' Q Q' P. specialize (F q Q). rewrite forallb_forall in F. specialize (F q' Q'). rewrite P in F.
    now apply String.eqb_eq in F. }
  assert (H : prefixes p p' = true \/ prefixes p' p = true).
  { clear - E. unfold prefixes. revert p' E. induction p as [|c p IH]; intros p' E; [left; reflexivity|].
    destruct p' as [|c' p']; [right; reflexivity|]. cbn [append] in E. injection E as -> E.
    cbn [strip_prefix]. rewrite Ascii.eqb_refl. now apply IH. }
  destruct H as [H|H]; [|symmetry]; now apply G.
Qed.
Lemma append_cancel a x y : a ++ x = a ++ y -> x = y.
Proof. induction a as [|c a IH]; auto. cbn [append]. intro E. injection E. auto. Qed.
Lemma made_of_front ps a a' x x' : prefix_free ps = true -> made_of ps a -> made_of ps a' ->
  (forall p r, In p ps -> x <> p ++ r) -> (forall p r, In p ps -> x' <> p ++ r) -> a ++ x = a' ++ x' -> x = x'.
Proof.
  intros F M. revert a'. induction M as [|w s I M IH]; intros a' M' N N' E.
  - destruct M' as [|w' s' I' M']; auto. exfalso. cbn [append] in E. rewrite append_assoc in E. eapply N; eauto.
  - destruct M' as [|w' s' I' M'].
    + exfalso. cbn [append] in E. rewrite append_assoc in E. eapply N'; eauto.
    + rewrite !append_assoc in E. assert (w = w') as <- by (eapply prefix_free_inj; eauto).
      apply append_cancel in E. eauto.
Qed.
(** no white space begins inside another one *)
Fixpoint tails (s : string) : list string := match s with "" => [] | String _ r => r :: tails r end.
Definition first_is (c : ascii) (s : string) : bool := match s with String d _ => Ascii.eqb c d | "" => false end.
Lemma spaces_apart : forallb (fun w => forallb (fun v => match v with
  | String c _ => forallb (fun w' => negb (first_is c w')) spaces | "" => true end) (tails w)) spaces = true.
Proof. vm_compute. reflexivity. Qed.
Lemma tails_in c t v : In v (tails (String c (t ++ v))).
Proof. induction t as [|d t IH] in c |- *; cbn [append tails]; [now left|]. right. apply (IH d). Qed.
Lemma white_made s : all_white s -> made_of spaces s.
Proof. induction 1; constructor; auto. now apply spaces_white. Qed.
Lemma not_white_app t b : t <> "" -> (forall w r, white_space w -> t <> w ++ r) -> made_of spaces b ->
  forall p r, In p spaces -> t ++ b <> p ++ r.
Proof.
  intros NE N M p r I E. destruct t as [|c t]; [now elim NE|].
  assert (H : (exists v, v <> "" /\ p = String c t ++ v /\ b = v ++ r) \/ exists r', String c t = p ++ r').
  { clear - E. revert p E. generalize (String c t). clear. intro t. induction t as [|c t IH]; intros p E.
    - destruct p as [|d p]; [right; exists ""; reflexivity|]. left. exists (String d p). repeat split; auto. discriminate.
    - destruct p as [|d p]; [right; exists (String c t); reflexivity|]. cbn [append] in E. injection E as <- E.
      destruct (IH p E) as [(v&V&->&Q)|(r'&->)]; [left; exists v; auto|right; exists r'; reflexivity]. }
  destruct H as [(v&V&->&Eb)|(r'&E')]; [|eapply N; [apply spaces_white; exact I|exact E']].
  pose proof spaces_apart as A. rewrite forallb_forall in A. specialize (A _ I). rewrite forallb_forall in A.
  specialize (A v (tails_in c t v)). destruct v as [|d v]; [now elim V|]. rewrite forallb_forall in A.
  destruct M as [|w s Iw _]; [discriminate|]. specialize (A w Iw).
  destruct w as [|x w]; [exact (spaces_ne Iw)|]. cbn [append] in Eb. injection Eb as -> _.
  cbn [first_is] in A. now rewrite Ascii.eqb_refl in A.
Qed.
Lemma made_of_srev s : made_of spaces s -> made_of (map srev spaces) (srev s).
Proof.
  induction 1 as [|w s I _ IH]; [constructor|]. rewrite srev_app. apply made_of_app; auto.
  rewrite <- (append_nil_r (srev w)). constructor; [now apply in_map|constructor].
Qed.
Lemma spaces_prefix_free : prefix_free spaces = true.
Proof. vm_compute. reflexivity. Qed.
Lemma rspaces_prefix_free : prefix_free (map srev spaces) = true.
Proof. vm_compute. reflexivity. Qed.
Lemma trimmed_text_fun s t t' : trimmed_text s t -> trimmed_text s t' -> t = t'.
Proof.
  intros (a&b&E&A&B&N&L) (a'&b'&E'&A'&B'&N'&L').
  apply white_made in A, B, A', B'.
  assert (Z : forall p r, In p spaces -> "" <> p ++ r) by (intros p r I Q; destruct p; [exact (spaces_ne I)|discriminate]).
  assert (Empty : forall t a b a' b', made_of spaces a -> made_of spaces b -> made_of spaces a' -> made_of spaces b' ->
    (forall w r, white_space w -> t <> w ++ r) -> a ++ "" ++ b = a' ++ t ++ b' -> t = "").
  { clear - Z. intros t a b a' b' A B A' B' N E. destruct t as [|c t]; auto. exfalso.
    assert (Q : "" = String c t ++ b').
    { apply (made_of_front spaces (a ++ b) a'); auto using spaces_prefix_free, made_of_app.
      - apply not_white_app; auto. discriminate.
      - rewrite append_nil_r. exact E. }
    discriminate Q. }
  destruct t as [|c t]; [symmetry; apply (Empty t' a b a' b'); auto; congruence|].
  destruct t' as [|c' t']; [apply (Empty (String c t) a' b' a b); auto; congruence|].
  assert (Q : String c t ++ b = String c' t' ++ b').
  { apply (made_of_front spaces a a'); auto using spaces_prefix_free; try congruence;
      (apply not_white_app; [discriminate|auto|auto]). }
  assert (R : srev (String c t) = srev (String c' t')).
  { apply (made_of_front (map srev spaces) (srev b) (srev b')); auto using rspaces_prefix_free, made_of_srev.
    - intros p r I R. apply in_map_iff in I as (w&<-&I). apply (L w (srev r)); [now apply spaces_white|].
      rewrite <- (srev_invol (String c t)), R, srev_app, srev_invol. reflexivity.
    - intros p r I R. apply in_map_iff in I as (w&<-&I). apply (L' w (srev r)); [now apply spaces_white|].
      rewrite <- (srev_invol (String c' t')), R, srev_app, srev_invol. reflexivity.
    - rewrite <- !srev_app. now rewrite Q. }
  rewrite <- (srev_invol (String c t)), R. apply srev_invol.
Qed.
Lemma trimmed_text_iff s t : trimmed_text s t <-> trim_space s = t.
Proof.
  split; [|intros <-; apply trim_spec]. intro T. eapply trimmed_text_fun; eauto. apply trim_spec.
Qed.

Lemma put_fold_last l : forall m h v,
  sget h (fold_left put l m) = Some v <->
  (exists s, last_such (fun kv => fst kv = h /\ trim_space (snd kv) <> "") l (h, s) /\ trim_space s = v) \/
  ((forall kv, In kv l -> fst kv = h -> trim_space (snd kv) = "") /\ sget h m = Some v).
Proof.
  induction l as [|[k s] l IH] using rev_ind; intros m h v.
  - simpl. split; [intro H; right; split; [intros ? []|exact H]|]. intros [(s&(l1&l2&E&_)&_)|[_ H]]; auto. destruct l1; discriminate.
  - rewrite fold_left_app. cbn [fold_left]. unfold put at 1. cbn [fst snd].
    destruct (String.eqb_spec (trim_space s) "") as [Z|Z].
    + rewrite IH. split; (intros [(s'&(l1&l2&E&P&Q)&V)|[H G]]; [left|right]).
      * exists s'. split; auto. exists l1, (l2 ++ [(k, s)])%list. rewrite E, <- app_assoc. repeat split; try apply P.
        intros y Hy [Hy1 Hy2]. apply in_app_or in Hy as [Hy|[<-|[]]]; [eapply Q; eauto|]. contradiction.
      * split; auto. intros kv Hkv Hf. apply in_app_or in Hkv as [Hy|[<-|[]]]; auto.
      * exists s'. split; auto. destruct l2 as [|y l2] using rev_ind.
        -- apply app_inj_tail in E as [_ E]. injection E; intros; subst. destruct P. contradiction.
        -- rewrite app_comm_cons, app_assoc in E. apply app_inj_tail in E as [-> _].
           exists l1, l2. repeat split; try apply P. intros y' Hy. apply Q. apply in_or_app; auto.
      * split; auto. intros. apply H; auto. apply in_or_app; auto.
    + rewrite (mget_mset _ seqP), String.eqb_sym. destruct (String.eqb_spec h k) as [->|N].
      * split.
        -- intro E; injection E; intros <-. left. exists s. split; auto. exists l, []. repeat split; auto.
        -- intros [(s'&(l1&l2&E&P&Q)&V)|[H G]].
           ++ destruct l2 as [|y l2] using rev_ind.
              ** apply app_inj_tail in E as [_ E]. congruence.
              ** rewrite app_comm_cons, app_assoc in E. apply app_inj_tail in E as [_ <-].
                 exfalso. apply (Q (k, s)); [apply in_or_app; simpl; auto|auto].
           ++ exfalso. apply Z. apply (H (k, s)); auto. apply in_or_app; simpl; auto.
      * rewrite IH. split; (intros [(s'&(l1&l2&E&P&Q)&V)|[H G]]; [left|right]).
        -- exists s'. split; auto. exists l1, (l2 ++ [(k, s)])%list. rewrite E, <- app_assoc. repeat split; try apply P.
           intros y Hy [Hy1 Hy2]. apply in_app_or in Hy as [Hy|[<-|[]]]; [eapply Q; eauto|]. simpl in Hy1. congruence.
        -- split; auto. intros kv Hkv Hf. apply in_app_or in Hkv as [Hy|[<-|[]]]; auto. simpl in Hf. congruence.
        -- exists s'. split; auto. destruct l2 as [|y l2] using rev_ind.
           ++ apply app_inj_tail in E as [_ E]. injection E; intros; subst. contradiction.
           ++ rewrite app_comm_cons, app_assoc in E. apply app_inj_tail in E as [-> _].
              exists l1, l2. repeat split; try apply P. intros y' Hy. apply Q. apply in_or_app; auto.
        -- split; auto. intros. apply H; auto. apply in_or_app; auto.
Qed.

(** ** Footnotes of a fact *)
Lemma after_last_hash_Some s t : after_last_hash s = Some t <-> exists b, s = b ++ "#" ++ t /\ free_of "#" t.
Proof.
  revert t. induction s as [|c s IH]; intro t; simpl.
  - split; [discriminate|]. intros ([|]&E&_); discriminate.
  - destruct (after_last_hash s) as [u|] eqn:E.
    + split.
      * intro H; injection H; intros <-. destruct (proj1 (IH u) eq_refl) as (b&->&F). exists (String c b). auto.
      * intros ([|a b]&H&F); simpl in H; injection H; intros E1 E2.
        -- subst s. destruct (proj1 (IH u) eq_refl) as (b&E3&_). rewrite E3 in F.
           apply free_of_app in F as [_ F]. simpl in F. tauto.
        -- apply IH. eauto.
    + assert (N : free_of "#" s).
      { apply has_char_false_iff. destruct (has_char "#" s) eqn:H; auto.
        exfalso. clear -E H. induction s as [|c s IH]; simpl in *; [discriminate|].
        destruct (after_last_hash s); [discriminate|]. destruct (Ascii.eqb c "#") eqn:C; [discriminate|].
        apply IH; auto. }
      destruct (Ascii.eqb_spec c "#") as [->|Nc].
      * split.
        -- intro H; injection H; intros <-. exists "". auto.
        -- intros ([|a b]&H&F); simpl in H; injection H; intros; subst; auto.
           apply free_of_app in N as [_ N]. simpl in N. tauto.
      * split; [discriminate|]. intros ([|a b]&H&F); simpl in H; injection H; intros; subst.
        -- contradiction.
        -- apply free_of_app in N as [_ N]. simpl in N. tauto.
Qed.
Lemma located_id_iff href id : located_id href = id <-> refers href id.
Proof.
  unfold located_id, refers. destruct (after_last_hash href) as [t|] eqn:E.
  - assert (U : forall x b, href = b ++ "#" ++ x -> free_of "#" x -> x = t).
    { intros x b H F. assert (after_last_hash href = Some x) by (apply after_last_hash_Some; eauto). congruence. }
    apply after_last_hash_Some in E as (b&H&F). destruct t as [|a t].
    + split.
      * intros <-. right. split; auto. intros; eapply U; eauto.
      * intros [(b'&H'&F'&N)|[_ ->]]; auto. pose proof (U _ _ H' F') as ->. contradiction.
    + split.
      * intros <-. left. exists b. repeat split; auto; try apply F. discriminate.
      * intros [(b'&H'&F'&N)|[G _]]; [symmetry; eapply U; eauto|]. discriminate (G _ _ H F).
  - split.
    + intros <-. right. split; auto. intros b x H F.
      assert (after_last_hash href = Some x) by (apply after_last_hash_Some; eauto). congruence.
    + intros [(b&H&F&N)|[_ ->]]; auto.
      assert (after_last_hash href = Some id) by (apply after_last_hash_Some; eauto). congruence.
Qed.
Lemma loc_points_iff i label href : map_fnote_locator_to_href i label = href <-> loc_points i label href.
Proof.
  unfold map_fnote_locator_to_href, loc_points.
  assert (PP : forall l, String.eqb (locLabel l) label && has_char "#" (locHref l) = true <->
               locLabel l = label /\ ~ free_of "#" (locHref l)).
  { intro l. rewrite andb_true_iff, String.eqb_eq, <- has_char_false_iff. destruct (has_char "#" (locHref l)); intuition congruence. }
  destruct (find _ _) as [l|] eqn:F.
  - apply find_first_such in F.
    assert (F' : first_such (fun l => locLabel l = label /\ ~ free_of "#" (locHref l)) (flat_map fkLocs (iFootnoteLinks i)) l).
    { revert F. apply first_such_iff. intros y _. apply PP. }
    split.
    + intros <-. left. destruct l as [h lb]. destruct (first_such_In _ _ _ F') as [_ [E _]]. simpl in *. now subst.
    + intros [H|[H _]].
      * now rewrite (first_such_unique _ _ _ _ F' H).
      * destruct (first_such_In _ _ _ F') as [Hi [E N]]. exfalso. apply N. now apply H.
  - assert (F' := proj1 (find_None_iff _ _) F). split.
    + intros <-. right. split; auto. intros l Hl E. apply has_char_false_iff.
      specialize (F' l Hl). cbv beta in F'. rewrite E, seqb_refl in F'. exact F'.
    + intros [H|[_ ->]]; auto. apply first_such_In in H as [Hi H]. apply PP in H. rewrite F' in H; [discriminate|auto].
Qed.
Lemma label_refers_iff i label id :
  located_id (map_fnote_locator_to_href i label) = id <-> label_refers i label id.
Proof.
  unfold label_refers. split.
  - intro H. exists (map_fnote_locator_to_href i label). split; [now apply loc_points_iff|now apply located_id_iff].
  - intros (h&H1&H2). apply loc_points_iff in H1. apply located_id_iff in H2. congruence.
Qed.
Lemma find_footnote_iff insts id f : find_footnote insts id = Some f <->
  first_such (fun f => fnID f = id) (flat_map fkFootnotes (flat_map iFootnoteLinks insts)) f.
Proof.
  unfold find_footnote. rewrite find_first_such. split; apply first_such_iff; intros y _; now rewrite String.eqb_eq.
Qed.
Lemma fnote_arcs_In l s t : (exists a, In a (fnote_arcs l) /\ arArcrole a = FactFootnoteArcrole /\ arFrom a = s /\ arTo a = t) <->
  exists a, In a l /\ faArcrole a = FactFootnoteArcrole /\ faFrom a = s /\ faTo a = t.
Proof.
  unfold fnote_arcs.
  assert (C : forall k a, In a l <-> exists n, In (n, a) (combine (seq k (length l)) l)).
  { intros k a. revert k. induction l as [|x l IH]; intro k; simpl.
    - split; [tauto|intros [? []]].
    - rewrite (IH (S k)). split.
      + intros [->|[n H]]; eauto.
      + intros [n [E|H]]; [left; congruence|eauto]. }
  split.
  - intros (a&H&R&F&T). apply in_map_iff in H as ([n b]&<-&H). simpl in *. exists b. repeat split; auto. apply (C 0%nat). eauto.
  - intros (a&H&R&F&T). apply (C 0%nat) in H as [n H].
    exists (Arc (faArcrole a) (f64_of_nat n) (faFrom a) (faTo a)). repeat split; auto.
    apply in_map_iff. exists (n, a). auto.
Qed.

Definition wf_arcs (insts : list instance) : Prop :=
  forall i l a, In i insts -> In l (iFootnoteLinks i) -> In a (fkArcs l) -> faArcrole a = FactFootnoteArcrole.
Section GetFootnotes.
  Variable tree : list arc -> string -> rarc.
  Hypothesis FT : faithful_tree tree.
  Definition root (l : footnote_link) := tree (fnote_arcs (fkArcs l)) FactFootnoteArcrole.
  Lemma root_iff l s t : (forall a, In a (fkArcs l) -> faArcrole a = FactFootnoteArcrole) ->
    ((exists c g, In c (ra_children (root l)) /\ In g (ra_children c) /\ ra_locator c = s /\ ra_locator g = t) <->
     (exists a, In a (fkArcs l) /\ faFrom a = s /\ faTo a = t /\ forall b, In b (fkArcs l) -> faTo b <> s)).
  Proof.
    intro W. destruct (FT (fnote_arcs (fkArcs l)) FactFootnoteArcrole) as (_&_&T).
    unfold root. rewrite <- T. unfold top_arc. split.
    - intros [H N]. apply fnote_arcs_In in H as (a&Ha&_&F&E). exists a. repeat split; auto.
      intros b Hb Eb. destruct (proj2 (fnote_arcs_In (fkArcs l) (faFrom b) (faTo b))) as (x&X1&X2&X3&X4); eauto 10.
      apply (N x); auto. congruence.
    - intros (a&Ha&F&E&N). split.
      + apply fnote_arcs_In. exists a. auto.
      + intros x Hx R Ex. destruct (proj1 (fnote_arcs_In (fkArcs l) (arFrom x) (arTo x))) as (b&Hb&_&_&Eb); eauto 10.
        apply (N b); auto. congruence.
  Qed.
  Lemma fn_children_Some o2 i id cs r : fn_children o2 i id cs = Some r ->
    exists c, In c cs /\ label_refers i (ra_locator c) id /\
      forall f, In f r <-> exists g, In g (ra_children c) /\
         find_footnote o2 (located_id (map_fnote_locator_to_href i (ra_locator g))) = Some f.
  Proof.
    induction cs as [|c cs IH]; simpl; [discriminate|].
    destruct (String.eqb_spec (located_id (map_fnote_locator_to_href i (ra_locator c))) id) as [E|N].
    - intro H; injection H; intros <-. exists c. repeat split; auto; [now apply label_refers_iff| |];
      rewrite collect_In; intros (g&H1&H2); eauto.
    - intro H. apply IH in H as (c'&?&?). eauto.
  Qed.
  Lemma fn_children_None o2 i id cs : fn_children o2 i id cs = None <->
    forall c, In c cs -> ~ label_refers i (ra_locator c) id.
  Proof.
    induction cs as [|c cs IH]; simpl.
    - split; auto.
    - destruct (String.eqb_spec (located_id (map_fnote_locator_to_href i (ra_locator c))) id) as [E|N].
      + split; [discriminate|]. intro H. exfalso. apply (H c); auto. now apply label_refers_iff.
      + rewrite IH. split; intros H c'; auto. intros [<-|Hc]; auto. intro L. apply N. now apply label_refers_iff.
  Qed.
  Lemma fn_links_Some o2 i id ls r : fn_links tree o2 i id ls = Some r ->
    r = [] \/ exists l, In l ls /\ fn_children o2 i id (ra_children (root l)) = Some r.
  Proof.
    induction ls as [|l ls IH]; cbn [fn_links]; [discriminate|]. fold (root l).
    destruct (ra_children (root l)) as [|c cs] eqn:E.
    - intro H; injection H; auto.
    - destruct (fn_children o2 i id (c :: cs)) as [x|] eqn:F.
      + intro H; injection H; intros <-. right. exists l. split; [simpl; auto|]. now rewrite E.
      + intro H. apply IH in H as [H|(l'&?&?)]; [auto|]. right. exists l'. simpl. auto.
  Qed.
  Lemma fn_instances_In o1 o2 id f : In f (fn_instances tree o1 o2 id) ->
    exists i l r, In i o1 /\ In l (iFootnoteLinks i) /\
      fn_children o2 i id (ra_children (root l)) = Some r /\ In f r.
  Proof.
    induction o1 as [|i o1 IH]; simpl; [tauto|].
    destruct (fn_links tree o2 i id (iFootnoteLinks i)) as [r|] eqn:E.
    - intro H. apply fn_links_Some in E as [->|(l&Hl&E)]; [destruct H|]. exists i, l, r. auto.
    - intro H. apply IH in H as (i'&l&r&?&?). exists i', l, r. tauto.
  Qed.
  Lemma linked_of_children o2 i l id c f :
    (forall a, In a (fkArcs l) -> faArcrole a = FactFootnoteArcrole) ->
    In c (ra_children (root l)) -> label_refers i (ra_locator c) id ->
    (exists g, In g (ra_children c) /\
         find_footnote o2 (located_id (map_fnote_locator_to_href i (ra_locator g))) = Some f) ->
    linked_by_id o2 i l id f.
  Proof.
    intros W Hc L (g&Hg&Hf).
    destruct (proj1 (root_iff l (ra_locator c) (ra_locator g) W)) as (a&Ha&F&T&N); [eauto 10|].
    exists a, (located_id (map_fnote_locator_to_href i (ra_locator g))). rewrite F, T. repeat split; auto.
    - now apply label_refers_iff.
    - now apply find_footnote_iff.
  Qed.
  Lemma get_footnotes_sound o1 o2 fa f : wf_arcs o1 ->
    In f (get_footnotes tree o1 o2 (Some fa)) ->
    exists i l, In i o1 /\ In l (iFootnoteLinks i) /\ linked_by_id o2 i l (fID fa) f.
  Proof.
    intros W H. apply fn_instances_In in H as (i&l&r&Hi&Hl&H&Hf).
    apply fn_children_Some in H as (c&Hc&L&E). apply E in Hf.
    exists i, l. repeat split; auto. eapply linked_of_children; eauto.
  Qed.

  (** the links and labels that lead from the fact *)
  Definition source_of (o1 : list instance) (id : string) (i : instance) (l : footnote_link) (s : string) : Prop :=
    In i o1 /\ In l (iFootnoteLinks i) /\ label_refers i s id /\
    (exists a, In a (fkArcs l) /\ faFrom a = s) /\ (forall b, In b (fkArcs l) -> faTo b <> s).
  Lemma fn_links_complete o2 i id ls :
    (forall l, In l ls -> forall a, In a (fkArcs l) -> faArcrole a = FactFootnoteArcrole) ->
    (forall l, In l ls -> exists a, In a (fkArcs l) /\ forall b, In b (fkArcs l) -> faTo b <> faFrom a) ->
    match fn_links tree o2 i id ls with
    | None => forall l c, In l ls -> In c (ra_children (root l)) -> ~ label_refers i (ra_locator c) id
    | Some r => exists l, In l ls /\ fn_children o2 i id (ra_children (root l)) = Some r
    end.
  Proof.
    induction ls as [|l ls IH]; intros W NE; cbn [fn_links]; [intros ? ? []|]. fold (root l).
    destruct (NE l) as (a&Ha&N); [simpl; auto|].
    destruct (proj2 (root_iff l (faFrom a) (faTo a) (W l (or_introl eq_refl)))) as (c&g&Hc&Hg&_); [exists a; auto|].
    destruct (ra_children (root l)) as [|c0 cs] eqn:E; [destruct Hc|].
    destruct (fn_children o2 i id (c0 :: cs)) as [r|] eqn:F.
    - exists l. split; [simpl; auto|]. now rewrite E.
    - assert (IH' := IH (fun l' Hl' => W l' (or_intror Hl')) (fun l' Hl' => NE l' (or_intror Hl'))).
      destruct (fn_links tree o2 i id ls) as [r|].
      + destruct IH' as (l'&?&?). exists l'. simpl. auto.
      + intros l' c' [<-|Hl'] Hc'; [|eauto]. rewrite E in Hc'. eapply fn_children_None in F; eauto.
  Qed.
  Lemma fn_instances_complete o1 o2 id :
    wf_arcs o1 ->
    (forall i l, In i o1 -> In l (iFootnoteLinks i) ->
       exists a, In a (fkArcs l) /\ forall b, In b (fkArcs l) -> faTo b <> faFrom a) ->
    (exists i l r, In i o1 /\ In l (iFootnoteLinks i) /\
       fn_children o2 i id (ra_children (root l)) = Some r /\ fn_instances tree o1 o2 id = r) \/
    ((forall i l c, In i o1 -> In l (iFootnoteLinks i) -> In c (ra_children (root l)) ->
        ~ label_refers i (ra_locator c) id) /\ fn_instances tree o1 o2 id = []).
  Proof.
    induction o1 as [|i o1 IH]; intros W NE; simpl; [right; tauto|].
    pose proof (fn_links_complete o2 i id (iFootnoteLinks i)
                  (fun l Hl a Ha => W i l a (or_introl eq_refl) Hl Ha)
                  (fun l Hl => NE i l (or_introl eq_refl) Hl)) as C.
    destruct (fn_links tree o2 i id (iFootnoteLinks i)) as [r|].
    - left. destruct C as (l&Hl&C). exists i, l, r. auto.
    - destruct IH as [(i'&l&r&?&?&?&?)|[H1 H2]].
      + intros i' l a Hi'. apply W. simpl; auto.
      + intros i' l Hi'. apply NE. simpl; auto.
      + left. exists i', l, r. auto.
      + right. split; auto. intros i' l c [<-|Hi']; eauto.
  Qed.
  Lemma get_footnotes_complete o1 o2 fa i l s f :
    wf_arcs o1 ->
    (forall i l, In i o1 -> In l (iFootnoteLinks i) ->
       exists a, In a (fkArcs l) /\ forall b, In b (fkArcs l) -> faTo b <> faFrom a) ->
    (forall i' l' s', source_of o1 (fID fa) i' l' s' -> i' = i /\ l' = l /\ s' = s) ->
    In i o1 -> In l (iFootnoteLinks i) -> linked_by_id o2 i l (fID fa) f ->
    In f (get_footnotes tree o1 o2 (Some fa)).
  Proof.
    intros W NE U Hi Hl (a&id&Ha&N&La&Lt&Hf). simpl.
    assert (S : source_of o1 (fID fa) i l (faFrom a)) by (repeat split; eauto).
    destruct (U _ _ _ S) as (_&_&Es).
    destruct (proj2 (root_iff l (faFrom a) (faTo a) (fun x => W i l x Hi Hl))) as (c&g&Hc&Hg&Lc&Lg); [eauto 10|].
    destruct (fn_instances_complete o1 o2 (fID fa) W NE) as [(i'&l'&r&Hi'&Hl'&C&->)|[H _]].
    - apply fn_children_Some in C as (c'&Hc'&L'&E).
      destruct (FT (fnote_arcs (fkArcs l')) FactFootnoteArcrole) as (ND&KK&_).
      destruct (KK c' Hc') as (g'&Hg').
      destruct (proj1 (root_iff l' (ra_locator c') (ra_locator g') (fun x => W i' l' x Hi' Hl'))) as (a'&Ha'&Fa'&_&Na'); [eauto 10|].
      destruct (U i' l' (ra_locator c')) as (->&->&Es').
      { repeat split; eauto. }
      assert (c' = c) as ->.
      { fold (root l) in ND. clear -ND Hc Hc' Lc Es Es'.
        assert (L : ra_locator c' = ra_locator c) by congruence. revert ND Hc Hc' L.
        generalize (ra_children (root l)). induction l0 as [|x xs IH]; simpl; [tauto|].
        intros ND [->|H1] [->|H2] L; auto; inversion ND as [|? ? Nin ND']; subst.
        - exfalso. apply Nin. rewrite <- L. now apply in_map.
        - exfalso. apply Nin. rewrite L. now apply in_map.
        - auto. }
      apply E. exists g. split; auto. rewrite Lg.
      rewrite (proj2 (label_refers_iff i (faTo a) id) Lt). now apply find_footnote_iff.
    - exfalso. apply (H i l c Hi Hl Hc). now rewrite Lc.
  Qed.
End GetFootnotes.

(** ** Unit registry *)
Lemma map_measurement_iff u m : map_measurement u = Some m <-> is_measurement u m.
Proof.
  unfold map_measurement. split.
  - destruct (uUnitID u) as [|i ri] eqn:E1; [discriminate|].
    destruct (uUnitName u) as [|n rn] eqn:E2; [discriminate|].
    destruct (uNSUnit u) as [|s rs] eqn:E3; [discriminate|].
    destruct (String.eqb_spec (etext i) "") as [Z1|Z1]; [discriminate|].
    destruct (String.eqb_spec (etext n) "") as [Z2|Z2]; [discriminate|].
    destruct (String.eqb_spec (etext s) "") as [Z3|Z3]; [discriminate|]. simpl.
    intro H; injection H; intros <-.
    constructor; cbn; try (now apply text_of_iff); eauto.
  - intros [(i&ri&E1&T1&N1) (n&rn&E2&T2&N2) (s&rs&E3&T3&N3) ? ? ? ? ? ? ? ? ? ? ? ? ? ?].
    rewrite E1, E2, E3, T1, T2, T3, !seqb_false by auto. simpl. f_equal.
    repeat match goal with H : text_of _ _ |- _ => apply text_of_iff in H; rewrite H; clear H end.
    destruct m; reflexivity.
Qed.
Definition add_all ms (r : registry) := fold_left add_measurement ms r.
Lemma query_add ms : forall (r : registry) nsp id m,
  (match sget nsp (add_all ms r) with Some us => sget id us | None => None end) = Some m <->
  last_such (fun m => mNSUnit m = nsp /\ mUnitID m = id) ms m \/
  ((forall m, In m ms -> ~ (mNSUnit m = nsp /\ mUnitID m = id)) /\
   (match sget nsp r with Some us => sget id us | None => None end) = Some m).
Proof.
  induction ms as [|x ms IH] using rev_ind; intros r nsp id m.
  - simpl. split; [intro H; right; split; [intros ? []|exact H]|]. intros [(l1&l2&E&_)|[_ H]]; auto. destruct l1; discriminate.
  - unfold add_all in *. rewrite fold_left_app. cbn [fold_left].
    assert (Step : forall r' : registry,
       (match sget nsp (add_measurement r' x) with Some us => sget id us | None => None end) =
       if String.eqb nsp (mNSUnit x) && String.eqb id (mUnitID x) then Some x
       else (match sget nsp r' with Some us => sget id us | None => None end)).
    { intro r'. unfold add_measurement. rewrite (mget_mset _ seqP), String.eqb_sym.
      destruct (String.eqb_spec nsp (mNSUnit x)) as [->|N]; simpl.
      - rewrite (mget_mset _ seqP), String.eqb_sym. destruct (String.eqb_spec id (mUnitID x)) as [->|N]; auto.
        destruct (sget (mNSUnit x) r'); reflexivity.
      - reflexivity. }
    rewrite Step. destruct (String.eqb_spec nsp (mNSUnit x)) as [->|N1];
      [destruct (String.eqb_spec id (mUnitID x)) as [->|N2]|]; cbn [andb].
    + split.
      * intro H; injection H; intros <-. left. exists ms, []. repeat split; auto.
      * intros [(l1&l2&E&P&Q)|[H _]].
        -- destruct l2 as [|y l2] using rev_ind.
           ++ apply app_inj_tail in E as [_ ->]. reflexivity.
           ++ rewrite app_comm_cons, app_assoc in E. apply app_inj_tail in E as [_ <-].
              exfalso. apply (Q x); [apply in_or_app; simpl; auto|auto].
        -- exfalso. apply (H x); [apply in_or_app; simpl; auto|auto].
    + rewrite IH. split; (intros [(l1&l2&E&P&Q)|[H G]]; [left|right]).
      * exists l1, (l2 ++ [x])%list. rewrite E, <- app_assoc. repeat split; try apply P.
        intros y Hy [Hy1 Hy2]. apply in_app_or in Hy as [Hy|[<-|[]]]; [eapply Q; eauto|]. congruence.
      * split; auto. intros y Hy [Hy1 Hy2]. apply in_app_or in Hy as [Hy|[<-|[]]]; [eapply H; eauto|congruence].
      * destruct l2 as [|y l2] using rev_ind.
        -- apply app_inj_tail in E as [_ ->]. destruct P. congruence.
        -- rewrite app_comm_cons, app_assoc in E. apply app_inj_tail in E as [-> _].
           exists l1, l2. repeat split; try apply P. intros y' Hy. apply Q. apply in_or_app; auto.
      * split; auto. intros. apply H. apply in_or_app; auto.
    + rewrite IH. split; (intros [(l1&l2&E&P&Q)|[H G]]; [left|right]).
      * exists l1, (l2 ++ [x])%list. rewrite E, <- app_assoc. repeat split; try apply P.
        intros y Hy [Hy1 Hy2]. apply in_app_or in Hy as [Hy|[<-|[]]]; [eapply Q; eauto|]. congruence.
      * split; auto. intros y Hy [Hy1 Hy2]. apply in_app_or in Hy as [Hy|[<-|[]]]; [eapply H; eauto|congruence].
      * destruct l2 as [|y l2] using rev_ind.
        -- apply app_inj_tail in E as [_ ->]. destruct P. congruence.
        -- rewrite app_comm_cons, app_assoc in E. apply app_inj_tail in E as [-> _].
           exists l1, l2. repeat split; try apply P. intros y' Hy. apply Q. apply in_or_app; auto.
      * split; auto. intros. apply H. apply in_or_app; auto.
Qed.
Lemma query_utr_iff us rest nsp id m :
  query_utr (Ok (map_measurements (us :: rest))) nsp id = Some m <-> registered us nsp id m.
Proof.
  unfold query_utr, map_measurements, registered. fold (add_all (collect map_measurement us) []).
  rewrite query_add. simpl. split.
  - intros [H|[_ H]]; [|discriminate]. exists (collect map_measurement us). split; auto.
    apply collect_image. apply map_measurement_iff.
  - intros (ms&I&H). left.
    rewrite (image_of_fun is_measurement us (collect map_measurement us) ms); auto.
    + intros x y z A B. apply map_measurement_iff in A, B. congruence.
    + apply collect_image. apply map_measurement_iff.
Qed.
