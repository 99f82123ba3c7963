(** * PeriodProps: C50-C52 *)
From Verif Require Import GoBase GoSpec GoFacts InstanceModel InstanceSpec LabelModel LabelSpec LabelProofs
  PeriodModel PeriodSpec PeriodProofs.
Local Open Scope string_scope.

(** C50 *)
Theorem C50_month_count :
  forall s e, valid_date s -> valid_date e ->
    (forall n, days_later n s e -> (30 <= n)%nat ->
       month_count s e = (12 * (dYear e - dYear s) + (dMonth e - dMonth s) + 1)%Z) /\
    ((forall n, days_later n s e -> (n < 30)%nat) -> month_count s e = 0%Z).
Proof.
  intros s e V W. rewrite month_count_eq by auto. split.
  - intros n D L. apply days_later_number in D; auto.
    destruct (Z.ltb_spec (day_number e - day_number s) 30); [lia|reflexivity].
  - intros H. destruct (Z.ltb_spec (day_number e - day_number s) 30) as [C|C]; [reflexivity|].
    specialize (H (Z.to_nat (day_number e - day_number s))). rewrite days_later_number in H by auto. lia.
Qed.
Print Assumptions C50_month_count.
(** the walk of the specification is the calendar: from the 31st of January to the 1st of
    March there are 30 days in a leap year, and 29 otherwise *)
Example C50_example :
  valid_date (Date 2020 1 31) /\ valid_date (Date 2020 3 1) /\ days_later 30 (Date 2020 1 31) (Date 2020 3 1) /\
  month_count (Date 2020 1 31) (Date 2020 3 1) = 3%Z /\
  days_later 29 (Date 2021 1 31) (Date 2021 3 1) /\ month_count (Date 2021 1 31) (Date 2021 3 1) = 0%Z /\
  month_count (Date 2019 1 1) (Date 2019 12 31) = 12%Z /\ month_count (Date 2019 12 31) (Date 2019 1 1) = 0%Z.
Proof.
  assert (V : forall d, (1 <= dMonth d <= 12)%Z /\ (1 <= dDay d <= days_in (dYear d) (dMonth d))%Z -> valid_date d)
    by (intros d; apply valid_iff).
  assert (valid_date (Date 2020 1 31)) by (apply V; cbv; intuition discriminate).
  assert (valid_date (Date 2020 3 1)) by (apply V; cbv; intuition discriminate).
  assert (valid_date (Date 2021 1 31)) by (apply V; cbv; intuition discriminate).
  assert (valid_date (Date 2021 3 1)) by (apply V; cbv; intuition discriminate).
  repeat match goal with |- _ /\ _ => split end; auto; try (apply days_later_number; auto); vm_compute; reflexivity.
Qed.

(** C51. A label starting with '/' is not a period any context has; see C51_example. *)
Theorem C51_english :
  forall es label text, (forall r, label <> "/" ++ r) ->
    (format_date es "en - english" label = text <-> shown_english label text).
Proof.
  intros es label text H. change "en - english" with English. rewrite format_date_english.
  unfold shown_english. rewrite (shown_gen (fun d => Some (format_us d))); auto; [reflexivity|].
  intros s t. rewrite us_date_iff. split; intros (d&D&E); exists d; split; auto; congruence.
Qed.
Print Assumptions C51_english.
(** [es] is the external Spanish date text *)
Theorem C51_spanish :
  forall es label text, (forall r, label <> "/" ++ r) ->
    (format_date es "es - español" label = text <->
     shown_spanish (fun s t => exists d, is_date s d /\ es d = Some t) label text).
Proof.
  intros es label text H. change "es - español" with Español. rewrite format_date_spanish.
  unfold shown_spanish. rewrite (shown_gen es); auto; reflexivity.
Qed.
Print Assumptions C51_spanish.
Theorem C51_other_languages :
  forall es lang label, lang <> "en - english" -> lang <> "es - español" -> format_date es lang label = label.
Proof.
  intros es lang label E S. unfold format_date. destruct (cut "/" label) as [[a b]|];
    destruct (String.eqb lang PureLabel); auto;
    destruct (String.eqb_spec lang English) as [X|_]; [now apply E in X| |now apply E in X|];
    destruct (String.eqb_spec lang Español) as [X|_]; auto; now apply S in X.
Qed.
Print Assumptions C51_other_languages.
Example C51_example :
  let es := fun _ : date => Some "31 diciembre 2019" in
  format_date es "en - english" "2019-12-31" = "as of December 31, 2019" /\
  format_date es "en - english" "2019-01-01/2019-12-31" = "12 months ended December 31, 2019" /\
  format_date es "es - español" "2019-01-01/2019-12-31" = "12 meses terminados al 31 diciembre 2019" /\
  format_date es "en - english" "2019-12-01/2019-12-31" = "1 month ended December 31, 2019" /\
  format_date es "en - english" "2019-12-02/2019-12-31" = "2019-12-02/2019-12-31" /\
  format_date es "en - english" "2019-12-31T00:00:00/forever" = "2019-12-31T00:00:00/forever" /\
  format_date es "en - english" "2019-02-29" = "2019-02-29" /\
  format_date es "en - english" "/foo" = "foo".
Proof. vm_compute. repeat split; reflexivity. Qed.

(** C52 *)
Lemma C52_header :
  forall es langs header lang text, is_map header ->
    is_map (format_header es langs header) /\
    (In (lang, text) (format_header es langs header) <->
     (exists iso, In ("Unlabelled", iso) header /\ In lang langs /\ lang <> "Unlabelled" /\ text = format_date es lang iso) \/
     (In (lang, text) header /\
      ~ (In lang langs /\ lang <> "Unlabelled" /\ exists iso, In ("Unlabelled", iso) header))).
Proof.
  intros es langs header lang text M. unfold format_header.
  destruct (sget PureLabel header) as [iso|] eqn:G.
  - assert (IS : forall x, In ("Unlabelled", x) header -> x = iso).
    { intros x H. apply (sget_iff _ _ _ M) in H. change "Unlabelled" with PureLabel in H. congruence. }
    apply (sget_iff _ _ _ M) in G. change PureLabel with "Unlabelled" in *.
    assert (A : forall l m, is_map m ->
      let m' := fold_left (fun m lang => if String.eqb lang "Unlabelled" then m else sset lang (format_date es lang iso) m) l m in
      is_map m' /\ (In (lang, text) m' <->
        (In lang l /\ lang <> "Unlabelled" /\ text = format_date es lang iso) \/
        (In (lang, text) m /\ ~ (In lang l /\ lang <> "Unlabelled")))).
    { induction l as [|a l IH]; intros m Hm; cbn [fold_left].
      - split; auto. simpl. tauto.
      - assert (Hm' : is_map (if String.eqb a "Unlabelled" then m else sset a (format_date es a iso) m)).
        { destruct (String.eqb a "Unlabelled"); auto using sset_is_map. }
        destruct (IH _ Hm') as [I1 I2]. split; auto. rewrite I2. simpl In.
        destruct (String.eqb_spec a "Unlabelled") as [->|N].
        + destruct (string_dec lang "Unlabelled") as [->|N']; intuition congruence.
        + rewrite sset_In_iff by auto.
          destruct (in_dec string_dec lang l); destruct (string_dec lang a) as [->|N'];
            intuition (try congruence; subst; auto). }
    specialize (A langs header M). cbv zeta in A. destruct A as [A1 A2]. split; auto. rewrite A2. split.
    + intros [(H1&H2&H3)|(H1&H2)]; [left; eauto|]. right. split; auto. intros (K1&K2&_). tauto.
    + intros [(x&H1&H2&H3&->)|(H1&H2)].
      * left. rewrite (IS _ H1). auto.
      * right. split; auto. intros (K1&K2). apply H2. eauto.
  - split; auto. rewrite sget_None in G. split.
    + intro H. right. split; auto. intros (_&_&x&K). apply G. apply in_map_iff. now exists ("Unlabelled", x).
    + intros [(x&K&_)|[H _]]; auto. exfalso. apply G. apply in_map_iff. now exists ("Unlabelled", x).
Qed.
Theorem C52_every_header :
  forall es langs headers i header, Forall is_map headers -> nth_error headers i = Some header ->
    length (format_relevant_period es headers langs) = length headers /\
    exists header', nth_error (format_relevant_period es headers langs) i = Some header' /\ is_map header' /\
      forall lang text, In (lang, text) header' <->
        (exists iso, In ("Unlabelled", iso) header /\ In lang langs /\ lang <> "Unlabelled" /\
                     text = format_date es lang iso) \/
        (In (lang, text) header /\
         ~ (In lang langs /\ lang <> "Unlabelled" /\ exists iso, In ("Unlabelled", iso) header)).
Proof.
  intros es langs headers i header F N. unfold format_relevant_period. split; [apply map_length|].
  exists (format_header es langs header). rewrite nth_error_map, N. split; auto.
  assert (M : is_map header) by (rewrite Forall_forall in F; eauto using nth_error_In).
  split; [now apply (C52_header es langs header "" "")|]. intros lang text. now apply C52_header.
Qed.
Print Assumptions C52_every_header.
Example C52_example :
  let h := [("Unlabelled", "2019-01-01/2019-12-31")] in
  is_map h /\
  format_header (fun _ => None) ["Unlabelled"; "en - english"; "es - español"; "fr"] h =
    [("Unlabelled", "2019-01-01/2019-12-31"); ("en - english", "12 months ended December 31, 2019");
     ("es - español", "2019-01-01/2019-12-31"); ("fr", "2019-01-01/2019-12-31")].
Proof.
  split; [|vm_compute; reflexivity]. repeat constructor; simpl; auto.
Qed.
