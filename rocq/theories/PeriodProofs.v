(** * PeriodProofs *)
From Verif Require Import GoBase GoSpec GoFacts InstanceModel InstanceSpec InstanceProofs LabelModel PeriodModel PeriodSpec.
Local Open Scope string_scope.
Local Open Scope Z_scope.

(** ** The calendar *)
Lemma leapP y : leap y = true <-> leap_year y.
Proof.
  unfold leap, leap_year. rewrite andb_true_iff, orb_true_iff, negb_true_iff, Z.eqb_neq, !Z.eqb_eq.
  rewrite !Z.mod_divide by lia. reflexivity.
Qed.
Ltac months := repeat match goal with H : In _ _ |- _ => simpl in H end;
  repeat match goal with H : _ \/ _ |- _ => destruct H end; try contradiction; subst.
Lemma days_in_spec y m n : 1 <= m <= 12 -> (month_length y m n <-> n = days_in y m).
Proof.
  intro R. split.
  - intro H. destruct H as [m H|m H|H|H]; [months; reflexivity..| |].
    + apply leapP in H. unfold days_in. simpl. now rewrite H.
    + unfold days_in. simpl. destruct (leap y) eqn:E; auto. apply leapP in E. contradiction.
  - intros ->. assert (C : m = 1 \/ m = 2 \/ m = 3 \/ m = 4 \/ m = 5 \/ m = 6 \/ m = 7 \/ m = 8 \/ m = 9 \/ m = 10 \/ m = 11 \/ m = 12) by lia.
    repeat destruct C as [C|C]; subst m; try (apply ml_31; simpl; tauto); try (apply ml_30; simpl; tauto).
    unfold days_in. simpl. destruct (leap y) eqn:E.
    + apply ml_29. now apply leapP.
    + apply ml_28. intro H. apply leapP in H. congruence.
Qed.
Lemma days_in_bounds y m : 28 <= days_in y m <= 31.
Proof. unfold days_in. destruct (m =? 2), (leap y), ((m =? 4) || (m =? 6) || (m =? 9) || (m =? 11)); lia. Qed.
Lemma valid_iff d : valid_date d <-> 1 <= dMonth d <= 12 /\ 1 <= dDay d <= days_in (dYear d) (dMonth d).
Proof.
  unfold valid_date. split.
  - intros [[M D] (n&L&B)]. apply days_in_spec in L; auto. lia.
  - intros [M D]. split; [lia|]. exists (days_in (dYear d) (dMonth d)). split; [now apply days_in_spec|lia].
Qed.
Lemma next_day_valid d : valid_date d -> valid_date (next_day d).
Proof.
  rewrite !valid_iff. intros [M D]. unfold next_day.
  destruct (Z.ltb_spec (dDay d) (days_in (dYear d) (dMonth d))); simpl; [lia|].
  destruct (Z.ltb_spec (dMonth d) 12); simpl.
  - pose proof (days_in_bounds (dYear d) (dMonth d + 1)). lia.
  - pose proof (days_in_bounds (dYear d + 1) 1). lia.
Qed.
Lemma next_day_spec d e : valid_date d -> (day_after d e <-> e = next_day d).
Proof.
  rewrite valid_iff. intros [M D]. unfold next_day. split.
  - intro H. destruct H as [y m a n L B|y m n B L|y]; simpl in *.
    + apply days_in_spec in L; auto. subst. destruct (Z.ltb_spec a (days_in y m)); auto; lia.
    + apply days_in_spec in L; auto. subst. rewrite Z.ltb_irrefl. destruct (Z.ltb_spec m 12); auto; lia.
    + reflexivity.
  - intros ->. destruct d as [y m a]. simpl in *.
    destruct (Z.ltb_spec a (days_in y m)).
    + apply da_day with (days_in y m); auto. now apply days_in_spec.
    + destruct (Z.ltb_spec m 12).
      * replace a with (days_in y m) by lia. apply da_month; auto. now apply days_in_spec.
      * assert (m = 12) by lia. subst m. replace a with 31 by (change (days_in y 12) with 31 in *; lia). apply da_year.
Qed.

Lemma month_start_eq y m : 1 <= m <= 12 ->
  month_start y (Z.to_nat (m - 1)) =
  let f := if leap y then 1 else 0 in
  if m =? 1 then 0 else if m =? 2 then 31 else if m =? 3 then 59 + f else if m =? 4 then 90 + f
  else if m =? 5 then 120 + f else if m =? 6 then 151 + f else if m =? 7 then 181 + f else if m =? 8 then 212 + f
  else if m =? 9 then 243 + f else if m =? 10 then 273 + f else if m =? 11 then 304 + f else 334 + f.
Proof.
  intro R. assert (C : m = 1 \/ m = 2 \/ m = 3 \/ m = 4 \/ m = 5 \/ m = 6 \/ m = 7 \/ m = 8 \/ m = 9 \/ m = 10 \/ m = 11 \/ m = 12) by lia.
  repeat destruct C as [C|C]; subst m; simpl; unfold days_in; simpl; destruct (leap y); reflexivity.
Qed.
Lemma year_start_step y : year_start (y + 1) = year_start y + 365 + if leap y then 1 else 0.
Proof.
  unfold year_start, leap.
  assert (A4 : (y + 1 + 3) / 4 = (y + 3) / 4 + if y mod 4 =? 0 then 1 else 0).
  { destruct (Z.eqb_spec (y mod 4) 0); Z.to_euclidean_division_equations; lia. }
  assert (A100 : (y + 1 + 99) / 100 = (y + 99) / 100 + if y mod 100 =? 0 then 1 else 0).
  { destruct (Z.eqb_spec (y mod 100) 0); Z.to_euclidean_division_equations; lia. }
  assert (A400 : (y + 1 + 399) / 400 = (y + 399) / 400 + if y mod 400 =? 0 then 1 else 0).
  { destruct (Z.eqb_spec (y mod 400) 0); Z.to_euclidean_division_equations; lia. }
  rewrite A4, A100, A400.
  destruct (Z.eqb_spec (y mod 4) 0), (Z.eqb_spec (y mod 100) 0), (Z.eqb_spec (y mod 400) 0); cbn [andb orb negb]; try lia;
    exfalso; clear A4 A100 A400; Z.to_euclidean_division_equations; lia.
Qed.
Lemma year_start_mono y1 y2 : y1 <= y2 -> year_start y1 <= year_start y2.
Proof.
  intro H. replace y2 with (y1 + Z.of_nat (Z.to_nat (y2 - y1))) by lia. generalize (Z.to_nat (y2 - y1)). intro n.
  induction n as [|n IH]; [rewrite Z.add_0_r; lia|].
  replace (y1 + Z.of_nat (S n)) with (y1 + Z.of_nat n + 1) by lia. rewrite year_start_step.
  destruct (leap (y1 + Z.of_nat n)); lia.
Qed.
Lemma day_number_next d : valid_date d -> day_number (next_day d) = day_number d + 1.
Proof.
  rewrite valid_iff. intros [M D]. unfold next_day, day_number. destruct d as [y m a]. simpl in *.
  destruct (Z.ltb_spec a (days_in y m)); simpl; [lia|].
  assert (E : a = days_in y m) by lia. subst a.
  destruct (Z.ltb_spec m 12); simpl.
  - replace (Z.to_nat (m + 1 - 1)) with (S (Z.to_nat (m - 1))) by lia. cbn [month_start].
    replace (Z.of_nat (S (Z.to_nat (m - 1)))) with m by lia. lia.
  - assert (m = 12) by lia. subst m. rewrite year_start_step, (month_start_eq y 12) by lia. simpl.
    change (days_in y 12) with 31. destruct (leap y); lia.
Qed.
Lemma day_number_bounds d : valid_date d ->
  year_start (dYear d) <= day_number d < year_start (dYear d + 1).
Proof.
  rewrite valid_iff. intros [M D]. unfold day_number. destruct d as [y m a]. simpl in *.
  rewrite year_start_step, month_start_eq by lia.
  assert (C : m = 1 \/ m = 2 \/ m = 3 \/ m = 4 \/ m = 5 \/ m = 6 \/ m = 7 \/ m = 8 \/ m = 9 \/ m = 10 \/ m = 11 \/ m = 12) by lia.
  repeat destruct C as [C|C]; subst m; unfold days_in in D; simpl in *; destruct (leap y); lia.
Qed.
Lemma day_number_inj d e : valid_date d -> valid_date e -> day_number d = day_number e -> d = e.
Proof.
  intros V W E. pose proof (day_number_bounds d V). pose proof (day_number_bounds e W).
  assert (Y : dYear d = dYear e).
  { destruct (Z.lt_trichotomy (dYear d) (dYear e)) as [L|[L|L]]; auto.
    - pose proof (year_start_mono (dYear d + 1) (dYear e)). lia.
    - pose proof (year_start_mono (dYear e + 1) (dYear d)). lia. }
  rewrite valid_iff in V, W. destruct d as [y m a], e as [y' m' a']. simpl in *. subst y'.
  unfold day_number in E. simpl in E. rewrite !month_start_eq in E by lia.
  assert (M : m = m').
  { clear H H0. destruct V as [V1 V2], W as [W1 W2].
    assert (C : m = 1 \/ m = 2 \/ m = 3 \/ m = 4 \/ m = 5 \/ m = 6 \/ m = 7 \/ m = 8 \/ m = 9 \/ m = 10 \/ m = 11 \/ m = 12) by lia.
    assert (C' : m' = 1 \/ m' = 2 \/ m' = 3 \/ m' = 4 \/ m' = 5 \/ m' = 6 \/ m' = 7 \/ m' = 8 \/ m' = 9 \/ m' = 10 \/ m' = 11 \/ m' = 12) by lia.
    destruct (leap y) eqn:Ly; repeat destruct C as [C|C]; subst m; unfold days_in in V2; simpl in V2, E; rewrite ?Ly in V2;
      repeat destruct C' as [C'|C']; subst m'; unfold days_in in W2; simpl in W2, E; rewrite ?Ly in W2; try reflexivity; exfalso; lia. }
  subst m'. f_equal. lia.
Qed.

(** ** Days between dates *)
Fixpoint iter_day (n : nat) (d : date) : date := match n with O => d | S k => next_day (iter_day k d) end.
Lemma iter_valid n d : valid_date d -> valid_date (iter_day n d).
Proof. intro V. induction n; simpl; auto using next_day_valid. Qed.
Lemma iter_number n d : valid_date d -> day_number (iter_day n d) = day_number d + Z.of_nat n.
Proof. intro V. induction n as [|n IH]; simpl iter_day; [lia|]. rewrite day_number_next by now apply iter_valid. lia. Qed.
Lemma days_later_iter n s e : valid_date s -> (days_later n s e <-> e = iter_day n s).
Proof.
  intro V. split.
  - intro H. induction H as [d|n s m e H IH A]; auto. specialize (IH V). subst m. simpl.
    apply next_day_spec; auto. now apply iter_valid.
  - intros ->. induction n as [|n IH]; [constructor|]. simpl. econstructor; [exact IH|].
    apply next_day_spec; auto. now apply iter_valid.
Qed.
Lemma days_later_number n s e : valid_date s -> valid_date e ->
  (days_later n s e <-> day_number e = day_number s + Z.of_nat n).
Proof.
  intros V W. rewrite days_later_iter by auto. split.
  - intros ->. now apply iter_number.
  - intro H. apply day_number_inj; auto using iter_valid. rewrite iter_number by auto. lia.
Qed.

(** ** monthCount *)
Lemma month_loop_eq fuel start end_ months : valid_date start -> valid_date end_ ->
  day_number start <= day_number end_ -> (Z.to_nat (day_number end_ - day_number start) < fuel)%nat ->
  month_loop fuel start end_ (dMonth start) months =
  months + 12 * (dYear end_ - dYear start) + (dMonth end_ - dMonth start).
Proof.
  revert start months. induction fuel as [|fuel IH]; intros start months V W L F; [lia|]. cbn [month_loop].
  destruct (Z.ltb_spec (day_number start) (day_number end_)) as [B|B].
  - pose proof (day_number_next start V) as N.
    rewrite IH; auto using next_day_valid; try lia.
    rewrite valid_iff in V. unfold next_day. destruct (Z.ltb_spec (dDay start) (days_in (dYear start) (dMonth start))); cbn [dMonth dYear dDay].
    + rewrite Z.eqb_refl. lia.
    + destruct (Z.ltb_spec (dMonth start) 12); cbn [dMonth dYear dDay].
      * destruct (Z.eqb_spec (dMonth start + 1) (dMonth start)); lia.
      * destruct (Z.eqb_spec 1 (dMonth start)); lia.
  - assert (E : start = end_) by (apply day_number_inj; auto; lia). subst. lia.
Qed.
Lemma month_count_eq s e : valid_date s -> valid_date e ->
  month_count s e = if day_number e - day_number s <? 30 then 0
                    else 12 * (dYear e - dYear s) + (dMonth e - dMonth s) + 1.
Proof.
  intros V W. unfold month_count. destruct (Z.ltb_spec (day_number e - day_number s) 30); auto.
  rewrite month_loop_eq; auto; lia.
Qed.
Lemma months_of_iff s e k : valid_date s -> valid_date e ->
  (months_of s e k <-> month_count s e = k /\ k >= 1).
Proof.
  intros V W. rewrite month_count_eq by auto. unfold months_of. split.
  - intros (n&D&L&->). apply days_later_number in D; auto.
    destruct (Z.ltb_spec (day_number e - day_number s) 30) as [B|B]; [lia|]. split; auto.
    assert (YM : dYear s < dYear e \/ (dYear s = dYear e /\ dMonth s <= dMonth e)).
    { pose proof (day_number_bounds s V). pose proof (day_number_bounds e W).
      destruct (Z.lt_trichotomy (dYear s) (dYear e)) as [Q|[Q|Q]]; auto.
      - right. split; auto. destruct (Z.le_gt_cases (dMonth s) (dMonth e)) as [R|R]; auto. exfalso.
        clear H H0. rewrite valid_iff in V, W. unfold day_number in *. rewrite Q in *.
        assert (MS : month_start (dYear e) (Z.to_nat (dMonth e - 1)) + days_in (dYear e) (dMonth e) <=
                     month_start (dYear e) (Z.to_nat (dMonth s - 1))).
        { replace (Z.to_nat (dMonth s - 1)) with (S (Z.to_nat (dMonth e - 1)) + Z.to_nat (dMonth s - 1 - dMonth e))%nat by lia.
          generalize (Z.to_nat (dMonth s - 1 - dMonth e)). intro j. induction j as [|j IHj].
          - rewrite Nat.add_0_r. cbn [month_start]. replace (Z.of_nat (S (Z.to_nat (dMonth e - 1)))) with (dMonth e) by lia. lia.
          - rewrite Nat.add_succ_r. change (month_start (dYear e) (S ?k)) with (month_start (dYear e) k + days_in (dYear e) (Z.of_nat (S k))).
            pose proof (days_in_bounds (dYear e) (Z.of_nat (S (S (Z.to_nat (dMonth e - 1)) + j)))). lia. }
        lia.
      - pose proof (year_start_mono (dYear e + 1) (dYear s)). lia. }
    rewrite valid_iff in V, W. lia.
  - destruct (Z.ltb_spec (day_number e - day_number s) 30) as [B|B]; [intros [<- H]; lia|].
    intros [<- _]. exists (Z.to_nat (day_number e - day_number s)). repeat split; [|lia].
    apply days_later_number; auto. lia.
Qed.

(** ** Decimal text *)
Lemma digit_fun c d d' : digit c d -> digit c d' -> d = d'.
Proof.
  unfold digit. simpl. intros H K.
  repeat match goal with H : _ \/ _ |- _ => destruct H as [H|H] end; try contradiction;
    inversion H; inversion K; subst; try reflexivity; discriminate.
Qed.
Lemma digit_inj c c' d : digit c d -> digit c' d -> c = c'.
Proof.
  unfold digit. simpl. intros H K.
  repeat match goal with H : _ \/ _ |- _ => destruct H as [H|H] end; try contradiction;
    inversion H; inversion K; subst; try reflexivity; discriminate.
Qed.
Lemma digit_range c d : digit c d -> 0 <= d <= 9.
Proof.
  unfold digit. simpl. intros H.
  repeat match goal with H : _ \/ _ |- _ => destruct H as [H|H] end; try contradiction; inversion H; lia.
Qed.
Lemma snoc_inj s t c d : s ++ String c "" = t ++ String d "" -> s = t /\ c = d.
Proof.
  revert t. induction s as [|a s IH]; intros [|b t] H; simpl in H.
  - injection H; auto.
  - injection H; intros E _. destruct t; discriminate.
  - injection H; intros E _. destruct s; discriminate.
  - injection H; intros E ->. apply IH in E as [-> ->]. auto.
Qed.
Lemma snoc_not_one s c d : s <> "" -> s ++ String c "" <> String d "".
Proof. destruct s as [|a s]; [congruence|]. intros _ H. simpl in H. injection H; intros E _. destruct s; discriminate. Qed.
Lemma numeral_len_inj s n : numeral s n -> forall t, numeral t n -> String.length s = String.length t -> s = t.
Proof.
  intro H. induction H as [c d D|s n c d H IH D]; intros t K L.
  - inversion K as [c' d' D' E1 E2|s' n' c' d' H' D' E1 E2]; subst.
    + f_equal. eapply digit_inj; eauto.
    + rewrite slength_app in L. simpl in L. apply numeral_nonempty in H'. destruct s'; simpl in *; [congruence|lia].
  - inversion K as [c' d' D' E1 E2|s' n' c' d' H' D' E1 E2]; subst.
    + rewrite slength_app in L. simpl in L. apply numeral_nonempty in H. destruct s; simpl in *; [congruence|lia].
    + apply digit_range in D as R. apply digit_range in D' as R'.
      assert (n = n' /\ d = d') as [-> ->].
      { change (10 * n' + d' = 10 * n + d) in E2. lia. }
      rewrite !slength_app in L. simpl in L. f_equal; [apply IH; auto; lia|]. f_equal. eapply digit_inj; eauto.
Qed.
Lemma numeral_zero s n : numeral s n -> numeral (String "0" s) n.
Proof.
  assert (Z0 : digit "0" 0) by (unfold digit; simpl; auto).
  intro H. induction H as [c d D|s n c d H IH D].
  - replace d with (10 * 0 + d) by lia. apply (num_more "0" 0); auto. now constructor.
  - change (String "0" (s ++ String c "")) with (String "0" s ++ String c ""). now constructor.
Qed.
Lemma numeral_lower s n : numeral s n -> (forall r, s <> String "0" r) -> 10 ^ (Z.of_nat (String.length s) - 1) <= n.
Proof.
  intro H. induction H as [c d D|s n c d H IH D]; intro NZ.
  - simpl. unfold digit in D. simpl in D.
    repeat match goal with H : _ \/ _ |- _ => destruct H as [H|H] end; try contradiction; inversion D; subst; try lia.
    exfalso. now apply (NZ "").
  - rewrite slength_app. simpl String.length.
    assert (NZ' : forall r, s <> String "0" r).
    { intros r ->. apply (NZ (r ++ String c "")). reflexivity. }
    specialize (IH NZ'). apply digit_range in D.
    assert (L : (1 <= String.length s)%nat) by (apply numeral_nonempty in H; destruct s; simpl; [congruence|lia]).
    replace (Z.of_nat (String.length s + 1) - 1) with (Z.succ (Z.of_nat (String.length s) - 1)) by lia.
    rewrite Z.pow_succ_r by lia. lia.
Qed.
Lemma digit_char_digit d : (d < 10)%N -> digit (digit_char d) (Z.of_N d).
Proof.
  intro H. unfold digit, digit_char.
  assert (C : (d = 0 \/ d = 1 \/ d = 2 \/ d = 3 \/ d = 4 \/ d = 5 \/ d = 6 \/ d = 7 \/ d = 8 \/ d = 9)%N) by lia.
  repeat destruct C as [C|C]; subst d; simpl; tauto.
Qed.
Lemma dec_pos_spec fuel : forall n acc, (n < 2 ^ N.of_nat fuel)%N -> (fuel <> 0)%nat ->
  exists s, dec_pos fuel n acc = s ++ acc /\ numeral s (Z.of_N n) /\ ((0 < n)%N -> forall r, s <> String "0" r).
Proof.
  induction fuel as [|fuel IH]; intros n acc B F; [congruence|]. cbn [dec_pos].
  assert (M : (n mod 10 < 10)%N) by (apply N.mod_lt; lia).
  destruct (N.eqb_spec (n / 10) 0) as [E|E].
  - exists (String (digit_char (n mod 10)) ""). repeat split.
    + assert (n mod 10 = n)%N as -> by (apply N.mod_small; apply N.div_small_iff; lia).
      constructor. apply digit_char_digit. apply N.div_small_iff; lia.
    + intros P r H. injection H; intros _ H0.
      assert (Q : (n mod 10 = n)%N) by (apply N.mod_small; apply N.div_small_iff; lia).
      rewrite Q in H0, M.
      assert (C : (n = 1 \/ n = 2 \/ n = 3 \/ n = 4 \/ n = 5 \/ n = 6 \/ n = 7 \/ n = 8 \/ n = 9)%N) by lia.
      repeat destruct C as [C|C]; subst n; discriminate H0.
  - destruct (IH (n / 10)%N (String (digit_char (n mod 10)) acc)) as (s&H1&H2&H3).
    + assert (n / 10 <= n / 2)%N by (apply N.div_le_compat_l; lia).
      assert (n / 2 < 2 ^ N.of_nat fuel)%N; [|lia].
      apply N.div_lt_upper_bound; [lia|]. rewrite <- N.pow_succ_r by lia. rewrite <- Nat2N.inj_succ. exact B.
    + intros ->. simpl in B. assert (n = 0 \/ n = 1)%N as [->| ->] by lia; apply E; reflexivity.
    + exists (s ++ String (digit_char (n mod 10)) ""). split; [|split].
      * rewrite H1, append_assoc. reflexivity.
      * assert (N : (Z.of_N n = 10 * Z.of_N (n / 10) + Z.of_N (n mod 10))).
        { rewrite (N.div_mod n 10) at 1 by lia. rewrite N2Z.inj_add, N2Z.inj_mul. reflexivity. }
        rewrite N. constructor; auto. now apply digit_char_digit.
      * intros _ r H. destruct s as [|a s]; [now apply numeral_nonempty in H2|].
        simpl in H. injection H; intros _ ->. assert (P : (0 < n / 10)%N) by (destruct (n / 10)%N; [congruence|reflexivity]).
        apply (H3 P s). reflexivity.
Qed.
Lemma itoa_decimal n : 0 <= n -> decimal (itoa n) n.
Proof.
  intro P. destruct n as [|p|p]; [|simpl|lia].
  - split; auto. simpl. constructor. unfold digit. simpl. auto.
  - destruct (dec_pos_spec (S (N.to_nat (N.log2 (Npos p)))) (Npos p) "") as (s&E&N&Z).
    + rewrite Nat2N.inj_succ, N2Nat.id. apply N.log2_spec. lia.
    + lia.
    + unfold itoa_N. rewrite E, append_nil_r. split; auto. right. apply Z. lia.
Qed.
Lemma numeral_upper s n : numeral s n -> n < 10 ^ Z.of_nat (String.length s).
Proof.
  intro Hu. induction Hu as [c d D|u m c d H IH D].
  - apply digit_range in D. simpl. lia.
  - apply digit_range in D. rewrite slength_app. simpl String.length.
    replace (Z.of_nat (String.length u + 1)) with (Z.succ (Z.of_nat (String.length u))) by lia.
    rewrite Z.pow_succ_r by lia. lia.
Qed.
Lemma decimal_bounds s n : decimal s n ->
  (s = "0" /\ n = 0) \/ (10 ^ (Z.of_nat (String.length s) - 1) <= n < 10 ^ Z.of_nat (String.length s)).
Proof.
  intros [H [->|Z]].
  - left. split; auto. inversion H as [c d D|s' n' c d H' D E1 E2]; subst.
    + eapply digit_fun; eauto. unfold digit. simpl. auto.
    + exfalso. eapply snoc_not_one; eauto. eapply numeral_nonempty; eauto.
  - right. split; [now apply numeral_lower|now apply numeral_upper].
Qed.
Lemma decimal_fun s t n : decimal s n -> decimal t n -> s = t.
Proof.
  intros H K. apply decimal_bounds in H as B1. apply decimal_bounds in K as B2.
  destruct H as [H _], K as [K _]. apply numeral_len_inj with n; auto.
  pose proof (numeral_nonempty _ _ H) as N1. pose proof (numeral_nonempty _ _ K) as N2.
  assert (P : forall u, u <> "" -> (1 <= String.length u)%nat) by (intros [|? u]; simpl; [congruence|lia]).
  apply P in N1. apply P in N2.
  assert (Q : forall k, 0 <= k -> 0 < 10 ^ k) by (intros; apply Z.pow_pos_nonneg; lia).
  destruct B1 as [[-> ->]|B1], B2 as [[-> B2']|B2]; auto.
  - specialize (Q (Z.of_nat (String.length t) - 1)). lia.
  - subst n. specialize (Q (Z.of_nat (String.length s) - 1)). lia.
  - destruct (Nat.lt_trichotomy (String.length s) (String.length t)) as [C|[C|C]]; auto.
    + assert (10 ^ Z.of_nat (String.length s) <= 10 ^ (Z.of_nat (String.length t) - 1)) by (apply Z.pow_le_mono_r; lia). lia.
    + assert (10 ^ Z.of_nat (String.length t) <= 10 ^ (Z.of_nat (String.length s) - 1)) by (apply Z.pow_le_mono_r; lia). lia.
Qed.
Lemma decimal_itoa s n : decimal s n -> s = itoa n.
Proof.
  intro H. apply decimal_fun with n; auto. apply itoa_decimal. destruct H as [H _]. eapply numeral_nonneg; eauto.
Qed.
Lemma pad_numeral k s n : numeral s n -> numeral (pad k s) n.
Proof.
  induction k as [|k IH]; simpl; intro H; auto. destruct (String.length s <? S k)%nat; auto. apply numeral_zero; auto.
Qed.
Lemma pad_length k s : String.length (pad k s) = Nat.max k (String.length s).
Proof.
  induction k as [|k IH]; cbn [pad]; [lia|]. destruct (Nat.ltb_spec (String.length s) (S k)); cbn [String.length]; lia.
Qed.
Lemma pad_itoa s n : numeral s n -> pad (String.length s) (itoa n) = s.
Proof.
  intro H. pose proof (numeral_nonneg _ _ H) as P. pose proof (itoa_decimal n P) as D.
  apply numeral_len_inj with n; auto; [apply pad_numeral, D|].
  rewrite pad_length. pose proof (numeral_upper _ _ H) as U. apply decimal_bounds in D as [[-> _]|D].
  - apply numeral_nonempty in H. destruct s; [congruence|]. simpl. lia.
  - destruct (Nat.le_gt_cases (String.length (itoa n)) (String.length s)) as [C|C]; [lia|].
    assert (10 ^ Z.of_nat (String.length s) <= 10 ^ (Z.of_nat (String.length (itoa n)) - 1)) by (apply Z.pow_le_mono_r; lia). lia.
Qed.

(** ** Dates as text *)
Lemma parse_digits_iff s n : s <> "" -> (parse_digits s = Some n <-> numeral s n).
Proof.
  intro H. rewrite <- (digits_numeral s H n). unfold parse_digits.
  destruct s as [|c r]; [congruence|]. destruct (digits_val 0 (String c r)) as [m|]; split.
  - intro E. exists m. split; congruence.
  - intros (m'&E&<-). congruence.
  - discriminate.
  - intros (m'&E&_). discriminate.
Qed.

Lemma len4 s : String.length s = 4%nat -> exists a b c d, s = String a (String b (String c (String d ""))).
Proof. destruct s as [|a [|b [|c [|d [|e s]]]]]; try discriminate. eauto. Qed.
Lemma len2 s : String.length s = 2%nat -> exists a b, s = String a (String b "").
Proof. destruct s as [|a [|b [|c s]]]; try discriminate. eauto. Qed.
Lemma parse_date_iff s d : parse_date s = Some d <-> is_date s d.
Proof.
  split.
  - unfold parse_date.
    destruct s as [|y1 [|y2 [|y3 [|y4 [|h1 [|m1 [|m2 [|h2 [|d1 [|d2 [|x s]]]]]]]]]]]; try discriminate.
    destruct (Ascii.eqb_spec h1 "-") as [->|]; [|intro; discriminate]. destruct (Ascii.eqb_spec h2 "-") as [->|]; [|intro; discriminate].
    cbn [andb]. set (ms := String m1 (String m2 "")). set (ds := String d1 (String d2 "")).
    destruct (parse_digits (String y1 (String y2 (String y3 (String y4 ""))))) as [y|] eqn:Ey; [|discriminate].
    destruct (parse_digits ms) as [m|] eqn:Em; [|discriminate]. destruct (parse_digits ds) as [a|] eqn:Ed; [|discriminate].
    apply parse_digits_iff in Ey, Em, Ed; try discriminate.
    destruct (_ && _) eqn:B; [|discriminate]. intro E. injection E; intros <-.
    exists (String y1 (String y2 (String y3 (String y4 "")))), ms, ds.
    split; [reflexivity|]. split; [split; auto|]. split; [split; auto|]. split; [split; auto|].
    apply valid_iff. cbn [dYear dMonth dDay]. lia.
  - intros (y&m&a&->&[Ly Ny]&[Lm Nm]&[La Na]&V).
    apply len4 in Ly as (y1&y2&y3&y4&->). apply len2 in Lm as (m1&m2&->). apply len2 in La as (d1&d2&->).
    cbn [append parse_date]. rewrite !Ascii.eqb_refl. cbn [andb].
    apply parse_digits_iff in Ny, Nm, Na; try discriminate. rewrite Ny, Nm, Na.
    apply valid_iff in V. destruct d as [yy mm dd]. cbn [dYear dMonth dDay] in *.
    replace (_ && _) with true by lia. reflexivity.
Qed.
Lemma is_date_fun s d d' : is_date s d -> is_date s d' -> d = d'.
Proof. rewrite <- !parse_date_iff. congruence. Qed.
Lemma us_date_iff s t : us_date s t <-> exists d, is_date s d /\ t = format_us d.
Proof.
  assert (A : forall y m a d, is_date (y ++ "-" ++ m ++ "-" ++ a) d -> String.length y = 4%nat -> numeral y (dYear d)).
  { intros y m a d (y'&m'&a'&E&[Ly Ny]&_) L. apply len4 in L as (?&?&?&?&->). apply len4 in Ly as (?&?&?&?&->).
    simpl in E. injection E; intros; subst. exact Ny. }
  split.
  - intros (y&m&a&d&n&name&->&D&L&N&Dn&->). exists d. split; auto. unfold format_us.
    apply decimal_itoa in Dn as <-. rewrite <- L, pad_itoa by eauto. unfold month_name.
    rewrite (nth_error_nth _ _ "" N). reflexivity.
  - intros (d&D&->). pose proof D as (y&m&a&->&[Ly Ny]&[Lm Nm]&[La Na]&V).
    exists y, m, a, d, (itoa (dDay d)), (month_name (dMonth d)). pose proof (proj1 V) as V1.
    repeat split; auto.
    + unfold month_name. apply nth_error_nth'. simpl. lia.
    + apply itoa_decimal. lia.
    + apply itoa_decimal. lia.
    + unfold format_us. rewrite <- Ly, pad_itoa by auto. reflexivity.
Qed.

(** ** Period labels *)
Section Shown.
  Context (f : date -> option string) (instant one many : string) (text : string -> string -> Prop).
  Context (Htext : forall s t, text s t <-> exists d, is_date s d /\ f d = Some t).
  Definition gen_dates (start end_ : string) : string :=
    match parse_date end_ with
    | None => default_date start end_
    | Some e =>
        match f e with
        | None => default_date start end_
        | Some date =>
            if nonempty start then
              match parse_date start with
              | None => default_date start end_
              | Some s =>
                  let months := month_count s e in
                  if (months <? 1)%Z then default_date start end_
                  else if (months =? 1)%Z then one ++ date
                  else itoa months ++ many ++ date
              end
            else instant ++ date
        end
    end.
  Definition gen_date (l : string) : string :=
    match cut "/" l with None => gen_dates "" l | Some (a, b) => gen_dates a b end.
  Lemma date_no_slash s d : is_date s d -> cut "/" s = None.
  Proof.
    intros (y&m&a&->&[Ly Ny]&[Lm Nm]&[La Na]&V). apply cut_None_iff.
    assert (D : forall u n, numeral u n -> free_of "/" u).
    { intros u n H. induction H as [c k D|u n c k H IH D].
      - split; simpl; auto. intro E. subst c. unfold digit in D. simpl in D.
        repeat match goal with H : _ \/ _ |- _ => destruct H as [H|H] end; try contradiction; inversion D.
      - apply free_of_app. split; auto. split; simpl; auto. intro E. subst c. unfold digit in D. simpl in D.
        repeat match goal with H : _ \/ _ |- _ => destruct H as [H|H] end; try contradiction; inversion D. }
    apply free_of_app. split; [eauto|]. split; [discriminate|]. cbn [append].
    apply free_of_app. split; [eauto|]. split; [discriminate|]. cbn [append]. eauto.
  Qed.
  Lemma duration_cut l a b : duration l a b <-> cut "/" l = Some (a, b) /\ a <> "".
  Proof. rewrite cut_Some_iff. unfold duration. tauto. Qed.
  Lemma shown_gen l t : (forall r, l <> "/" ++ r) -> (shown instant one many text l t <-> gen_date l = t).
  Proof.
    intro NS. split.
    - intro H. unfold gen_date, gen_dates. destruct H as [s d t D T|l a b s e t U A B T M|l a b s e k n t U A B T M K N|l H1 H2].
      + rewrite (date_no_slash _ _ D). rewrite (proj2 (parse_date_iff _ _) D).
        apply Htext in T as (d'&D'&T). rewrite (is_date_fun _ _ _ D D'), T. reflexivity.
      + apply duration_cut in U as [-> NE]. rewrite (proj2 (parse_date_iff _ _) B), (proj2 (parse_date_iff _ _) A).
        apply Htext in T as (d'&D'&T). rewrite (is_date_fun _ _ _ B D'), T. rewrite <- (is_date_fun _ _ _ B D').
        destruct a as [|a0 a]; [congruence|]. cbn [nonempty].
        destruct A as (?&?&?&?&?&?&?&VA), B as (?&?&?&?&?&?&?&VB).
        apply months_of_iff in M as [-> M]; auto.
      + apply duration_cut in U as [-> NE]. rewrite (proj2 (parse_date_iff _ _) B), (proj2 (parse_date_iff _ _) A).
        apply Htext in T as (d'&D'&T). rewrite (is_date_fun _ _ _ B D'), T. rewrite <- (is_date_fun _ _ _ B D').
        destruct a as [|a0 a]; [congruence|]. cbn [nonempty].
        destruct A as (?&?&?&?&?&?&?&VA), B as (?&?&?&?&?&?&?&VB).
        apply months_of_iff in M as [-> M]; auto. cbv zeta.
        replace (k <? 1) with false by lia. replace (k =? 1) with false by lia.
        now rewrite (decimal_itoa _ _ N).
      + destruct (cut "/" l) as [[a b]|] eqn:C.
        * assert (NE : a <> "").
          { intros ->. apply cut_Some_iff in C as [-> _]. now apply (NS b). }
          assert (DD : default_date a b = l).
          { unfold default_date. destruct a; [congruence|]. cbn [nonempty]. apply cut_Some_iff in C as [-> _]. reflexivity. }
          destruct (parse_date b) as [e|] eqn:PB; auto. destruct (f e) as [t|] eqn:F; auto.
          destruct (nonempty a) eqn:NA; [|destruct a; [congruence|discriminate]].
          destruct (parse_date a) as [s|] eqn:PA; auto. cbv zeta.
          destruct (Z.ltb_spec (month_count s e) 1); auto. exfalso.
          apply parse_date_iff in PA, PB. eapply (H2 a b s e (month_count s e) t); auto.
          -- apply duration_cut; auto.
          -- apply Htext. eauto.
          -- destruct PA as (?&?&?&?&?&?&?&VA), PB as (?&?&?&?&?&?&?&VB). apply months_of_iff; auto. lia.
        * destruct (parse_date l) as [e|] eqn:P; auto. destruct (f e) as [t|] eqn:F; auto.
          exfalso. apply parse_date_iff in P. apply (H1 e t P). apply Htext. eauto.
    - intros <-. unfold gen_date, gen_dates. destruct (cut "/" l) as [[a b]|] eqn:C.
      + assert (NE : a <> "").
        { intros ->. apply cut_Some_iff in C as [-> _]. now apply (NS b). }
        assert (DD : default_date a b = l).
        { unfold default_date. destruct a; [congruence|]. cbn [nonempty]. apply cut_Some_iff in C as [-> _]. reflexivity. }
        assert (NI : forall d t, is_date l d -> ~ text l t).
        { intros d t D _. apply date_no_slash in D. congruence. }
        assert (U : duration l a b) by (apply duration_cut; auto).
        assert (UU : forall a' b', duration l a' b' -> a' = a /\ b' = b).
        { intros a' b' U'. apply duration_cut in U' as [U' _]. split; congruence. }
        destruct (parse_date b) as [e|] eqn:PB.
        2:{ rewrite DD. apply sh_asis; auto. intros a' b' s e k t U' A B _ _. apply UU in U' as [-> ->].
            apply parse_date_iff in B. congruence. }
        apply parse_date_iff in PB. destruct (f e) as [t|] eqn:F.
        2:{ rewrite DD. apply sh_asis; auto. intros a' b' s e' k t U' A B T _. apply UU in U' as [-> ->].
            apply Htext in T as (d&D&T). rewrite (is_date_fun _ _ _ D PB) in T. congruence. }
        destruct (nonempty a) eqn:NA; [|destruct a; [congruence|discriminate]].
        destruct (parse_date a) as [s|] eqn:PA.
        2:{ rewrite DD. apply sh_asis; auto. intros a' b' s e' k t' U' A B T _. apply UU in U' as [-> ->].
            apply parse_date_iff in A. congruence. }
        apply parse_date_iff in PA. cbv zeta.
        assert (VA : valid_date s) by (destruct PA as (?&?&?&?&?&?&?&VA); auto).
        assert (VB : valid_date e) by (destruct PB as (?&?&?&?&?&?&?&VB); auto).
        assert (T : text b t) by (apply Htext; eauto).
        destruct (Z.ltb_spec (month_count s e) 1).
        * rewrite DD. apply sh_asis; auto. intros a' b' s' e' k t' U' A B _ M. apply UU in U' as [-> ->].
          rewrite (is_date_fun _ _ _ A PA), (is_date_fun _ _ _ B PB) in M. apply months_of_iff in M as [E M]; auto. lia.
        * destruct (Z.eqb_spec (month_count s e) 1) as [E|E].
          -- eapply sh_one; eauto. apply months_of_iff; auto. lia.
          -- eapply sh_many with (k := month_count s e); eauto.
             ++ apply months_of_iff; auto. lia.
             ++ lia.
             ++ apply itoa_decimal. lia.
      + assert (ND : forall a b, ~ duration l a b).
        { intros a b U. apply duration_cut in U as [U _]. congruence. }
        destruct (parse_date l) as [e|] eqn:P.
        * apply parse_date_iff in P. destruct (f e) as [t|] eqn:F.
          -- simpl. eapply sh_instant; eauto. apply Htext; eauto.
          -- simpl. apply sh_asis.
             ++ intros d t D T. apply Htext in T as (d'&D'&T). rewrite (is_date_fun _ _ _ D' P) in T. congruence.
             ++ intros a b s e' k t U. now apply ND in U.
        * change (default_date "" l) with l. apply sh_asis.
          -- intros d t D. rewrite <- parse_date_iff in D. congruence.
          -- intros a b s e' k t U. now apply ND in U.
  Qed.
End Shown.
Lemma format_date_english es l :
  format_date es English l = gen_date (fun d => Some (format_us d)) "as of " "1 month ended " " months ended " l.
Proof. unfold format_date, gen_date. destruct (cut "/" l) as [[a b]|]; reflexivity. Qed.
Lemma format_date_spanish es l :
  format_date es Español l = gen_date es "al " "un mes terminado al " " meses terminados al " l.
Proof. unfold format_date, gen_date. destruct (cut "/" l) as [[a b]|]; reflexivity. Qed.
