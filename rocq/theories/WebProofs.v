(** Lemmas about the HTTP handlers. *)
From Coq Require Import Strings.String Strings.Ascii Lists.List Bool NArith Lia.
From Verif Require Import GoBase GoSpec GoFacts WebModel WebSpec.
Import ListNotations.
Open Scope string_scope.

Lemma app_nil_r' s : s ++ "" = s.
Proof. induction s; cbn; congruence. Qed.
Lemma app_assoc' (a b c : string) : (a ++ b) ++ c = a ++ b ++ c.
Proof. induction a; cbn; congruence. Qed.

Lemma finish_error detect msg code :
  status (finish detect (http_error msg code new_writer)) = code /\
  body (finish detect (http_error msg code new_writer)) = msg ++ String (ascii_of_nat 10) "".
Proof. split; reflexivity. Qed.

Lemma reply_reflects detect r : reflects r (option_map (finish detect) (reply r)).
Proof.
  destruct r as [d|m|]; cbn [reflects reply option_map].
  - eexists. split; [reflexivity|]. split; [reflexivity|]. destruct d; reflexivity.
  - eexists. split; [reflexivity|]. split; [reflexivity|].
    change (("Error: " ++ m) ++ String (ascii_of_nat 10) "" = "Error: " ++ m ++ String (ascii_of_nat 10) "").
    apply app_assoc'.
  - reflexivity.
Qed.

Lemma nonempty_false s : nonempty s = false <-> s = "".
Proof. destruct s; cbn; split; congruence. Qed.

Lemma hex_value_iff c n : hex_value c = Some n <-> hex_digit_of c n.
Proof.
  split.
  - intros H.
    assert (HH : forall c, match hex_value c with
      | Some n => String.get (N.to_nat n) "0123456789abcdef" = Some c \/ String.get (N.to_nat n) "0123456789ABCDEF" = Some c
      | None => True end).
    { intros [[] [] [] [] [] [] [] []]; vm_compute; auto. }
    specialize (HH c). rewrite H in HH. exact HH.
  - unfold hex_digit_of. rewrite <- (N2Nat.id n) at 3.
    generalize (N.to_nat n) as k. intros k H.
    do 16 (destruct k as [|k]; [destruct H as [[= <-]|[= <-]]; reflexivity|]).
    destruct H as [H|H]; cbn in H; discriminate.
Qed.

Lemma unescape_iff : forall t v, query_unescape t = Ok v <-> encodes v t.
Proof.
  intros t v. split.
  - remember (String.length t) as n eqn:En. assert (Hn : String.length t <= n) by lia. clear En.
    revert t v Hn. induction n as [|n IH]; intros t v Hn H.
    { destruct t; cbn in *; [|lia]. injection H as <-. constructor. }
    destruct t as [|c t]; cbn in H, Hn; [injection H as <-; constructor|].
    destruct (Ascii.eqb_spec c "%") as [->|Hc].
    + destruct t as [|h [|l t]]; try discriminate. cbn in Hn.
      destruct (hex_value h) as [a|] eqn:Ea; try discriminate.
      destruct (hex_value l) as [b|] eqn:Eb; try discriminate.
      destruct (query_unescape t) as [u| |] eqn:Eu; try discriminate. injection H as <-.
      apply hex_value_iff in Ea, Eb. constructor; auto. apply IH; auto. lia.
    + destruct (query_unescape t) as [u| |] eqn:Eu; try discriminate. cbn in H. injection H as <-.
      destruct (Ascii.eqb_spec c "+") as [->|Hp].
      * constructor. apply IH; auto. lia.
      * constructor; auto. apply IH; auto. lia.
  - induction 1 as [|c v t H1 H2 He IH|v t He IH|a b h l v t Hh Hl He IH]; cbn [query_unescape]; auto.
    + destruct (Ascii.eqb_spec c "%"); [contradiction|]. rewrite IH. cbn. destruct (Ascii.eqb_spec c "+"); [contradiction|]. reflexivity.
    + cbn. now rewrite IH.
    + cbn. apply hex_value_iff in Hh, Hl. rewrite Hh, Hl, IH. reflexivity.
Qed.

Lemma unescape_no_panic t : query_unescape t <> Panic.
Proof.
  remember (String.length t) as n eqn:En. assert (Hn : String.length t <= n) by lia. clear En.
  revert t Hn. induction n as [|n IH]; intros t Hn; destruct t as [|c t]; cbn in *; try discriminate; try lia.
  destruct (Ascii.eqb c "%").
  - destruct t as [|h [|l t]]; try discriminate. destruct (hex_value h), (hex_value l); try discriminate.
    specialize (IH t). cbn in Hn. destruct (query_unescape t); try discriminate. intros _. apply IH; auto. lia.
  - specialize (IH t). destruct (query_unescape t); try discriminate. intros _. apply IH; auto. lia.
Qed.

Lemma free_of_app c a b : free_of c (a ++ b) <-> free_of c a /\ free_of c b.
Proof. induction a; cbn; tauto. Qed.

Lemma split_free c s : Forall (free_of c) (split c s).
Proof.
  induction s as [|a s IH]; cbn; [repeat constructor|].
  destruct (Ascii.eqb_spec a c); [constructor; cbn; auto|].
  destruct (split c s); inversion IH; subst; repeat constructor; cbn; auto.
Qed.
Lemma split_nonnil c s : split c s <> [].
Proof. destruct s; cbn; [discriminate|]. destruct (Ascii.eqb a c); [discriminate|]. destruct (split c s); discriminate. Qed.
Lemma concat_split c s : String.concat (String c "") (split c s) = s.
Proof.
  induction s as [|a s IH]; cbn [split]; auto.
  destruct (Ascii.eqb_spec a c) as [->|].
  - pose proof (split_nonnil c s). destruct (split c s) eqn:E; [contradiction|]. cbn in *. now rewrite IH.
  - pose proof (split_nonnil c s). destruct (split c s) eqn:E; [contradiction|]. cbn in *.
    destruct l; cbn; now rewrite <- IH.
Qed.
Lemma split_free_one c s : free_of c s -> split c s = [s].
Proof.
  induction s as [|a s IH]; cbn; auto. intros [Ha Hs]. destruct (Ascii.eqb_spec a c); [contradiction|].
  now rewrite IH.
Qed.
Lemma split_app c a s : free_of c a -> split c (a ++ String c s) = a :: split c s.
Proof.
  induction a as [|x a IH]; cbn.
  - now rewrite Ascii.eqb_refl.
  - intros [Hx Ha]. destruct (Ascii.eqb_spec x c); [contradiction|]. now rewrite IH.
Qed.
Lemma split_concat c ps : ps <> [] -> Forall (free_of c) ps -> split c (String.concat (String c "") ps) = ps.
Proof.
  intros Hn HF. induction HF as [|p ps Hp HF IH]; [contradiction|].
  destruct ps as [|p' ps]; [now apply split_free_one|].
  change (String.concat (String c "") (p :: p' :: ps)) with (p ++ String c (String.concat (String c "") (p' :: ps))).
  rewrite split_app, IH; auto. discriminate.
Qed.

Definition fields_of (ps : list (option (string * string))) : list (string * string) :=
  flat_map (fun p => match p with Some kv => [kv] | None => [] end) ps.

Lemma parts_parse ps vs : query_parts ps vs -> exists xs, mapM parse_pair ps = Ok xs /\ fields_of xs = vs.
Proof.
  induction 1 as [|ps vs H IH|ek k ps vs Hn H1 H2 H3 He H IH|ek k ev v ps vs H1 H2 H3 He Hv H IH].
  - exists []. auto.
  - destruct IH as (xs & E & <-). exists (None :: xs). cbn. now rewrite E.
  - destruct IH as (xs & E & <-). exists (Some (k, "") :: xs). cbn [mapM]. unfold parse_pair at 1.
    rewrite (proj2 (has_char_false_iff ";" ek) H2). replace (nonempty ek) with true by now destruct ek.
    rewrite (proj2 (cut_None_iff "=" ek) H1). cbn [fst snd]. rewrite (proj2 (unescape_iff ek k) He). cbn.
    now rewrite E.
  - destruct IH as (xs & E & <-). exists (Some (k, v) :: xs). cbn [mapM]. unfold parse_pair at 1.
    apply free_of_app in H2 as [H2 H2'].
    assert (H4 : has_char ";" (ek ++ "=" ++ ev) = false).
    { apply has_char_false_iff. apply free_of_app. split; auto. cbn. split; [discriminate|auto]. }
    rewrite H4. replace (nonempty (ek ++ "=" ++ ev)) with true by now destruct ek.
    assert (H5 : cut "=" (ek ++ "=" ++ ev) = Some (ek, ev)).
    { apply cut_Some_iff. auto. }
    rewrite H5. cbn [fst snd]. rewrite (proj2 (unescape_iff ek k) He). cbn. rewrite (proj2 (unescape_iff ev v) Hv). cbn.
    now rewrite E.
Qed.

Lemma parse_parts ps xs : Forall (free_of "&") ps -> mapM parse_pair ps = Ok xs -> query_parts ps (fields_of xs).
Proof.
  intros HF. revert xs. induction HF as [|p ps Hp HF IH]; intros xs H; cbn in H.
  - injection H as <-. constructor.
  - destruct (parse_pair p) as [x| |] eqn:Ex; try discriminate. cbn in H.
    destruct (mapM parse_pair ps) as [ys| |] eqn:Ey; try discriminate. cbn in H. injection H as <-.
    specialize (IH ys eq_refl). unfold parse_pair in Ex.
    destruct (has_char ";" p) eqn:Es; try discriminate. apply has_char_false_iff in Es.
    destruct (nonempty p) eqn:En.
    + destruct (cut "=" p) as [[ek ev]|] eqn:Ec; cbn [fst snd] in Ex.
      * apply cut_Some_iff in Ec as [-> Hk].
        destruct (query_unescape ek) as [k| |] eqn:Ek; try discriminate. cbn in Ex.
        destruct (query_unescape ev) as [v| |] eqn:Ev; try discriminate. cbn in Ex. injection Ex as <-.
        apply unescape_iff in Ek, Ev. cbn.
        apply free_of_app in Es as [Es1 [_ Es2]], Hp as [Hp1 [_ Hp2]].
        apply qp_pair; auto; apply free_of_app; auto.
      * apply cut_None_iff in Ec.
        destruct (query_unescape p) as [k| |] eqn:Ek; try discriminate. cbn in Ex. injection Ex as <-.
        apply unescape_iff in Ek. cbn. apply qp_key; auto. now destruct p.
    + injection Ex as <-. apply nonempty_false in En as ->. cbn. now constructor.
Qed.

Lemma query_parts_free ps vs : query_parts ps vs -> Forall (free_of "&") ps.
Proof.
  induction 1 as [|ps vs H IH|ek k ps vs Hn H1 H2 H3 He H IH|ek k ev v ps vs H1 H2 H3 He Hv H IH]; constructor; cbn; auto.
  apply free_of_app in H3 as [H3 H4]. apply free_of_app. split; auto. cbn. split; [discriminate|auto].
Qed.

Lemma parse_query_iff q vs : parse_query q = Ok vs <-> query_fields q vs.
Proof.
  unfold parse_query, query_fields. split.
  - destruct (mapM parse_pair (split "&" q)) as [xs| |] eqn:E; try discriminate. cbn. intros [= <-].
    exists (split "&" q). split; [apply split_nonnil|]. split; [symmetry; apply concat_split|].
    apply parse_parts; auto. apply split_free.
  - intros (ps & Hn & -> & H). rewrite split_concat; auto; [|eapply query_parts_free; eauto].
    destruct (parts_parse ps vs H) as (xs & E & <-). now rewrite E.
Qed.

Lemma parse_pair_no_panic p : parse_pair p <> Panic.
Proof.
  unfold parse_pair. destruct (has_char ";" p); try discriminate. destruct (nonempty p); try discriminate.
  set (kv := match cut "=" p with Some kv => kv | None => (p, "") end).
  pose proof (unescape_no_panic (fst kv)). destruct (query_unescape (fst kv)); try discriminate; try contradiction. cbn.
  pose proof (unescape_no_panic (snd kv)). destruct (query_unescape (snd kv)); try discriminate; contradiction.
Qed.
Lemma parse_query_no_panic q : parse_query q <> Panic.
Proof.
  unfold parse_query. assert (H : forall ps, mapM parse_pair ps <> Panic).
  { induction ps as [|p ps IH]; cbn; [discriminate|]. pose proof (parse_pair_no_panic p).
    destruct (parse_pair p); try discriminate; try contradiction. cbn. destruct (mapM parse_pair ps); try discriminate. contradiction. }
  specialize (H (split "&" q)). destruct (mapM parse_pair (split "&" q)); try discriminate. contradiction.
Qed.

Lemma values_get_field key vs : field vs key (values_get key vs).
Proof.
  unfold values_get, field. induction vs as [|[k v] vs IH]; cbn.
  - right. split; auto.
  - destruct (String.eqb_spec k key) as [->|Hk].
    + left. exists [], vs. split; [reflexivity|]. split; [reflexivity|]. intros y [].
    + destruct IH as [(a & b & E & _ & Ha)|[E Ha]].
      * left. exists ((k, v) :: a), b. rewrite E at 1. split; [reflexivity|]. split; [reflexivity|].
        intros y [<-|Hy]; cbn; auto.
      * right. split; auto. intros kv [<-|Hin]; cbn; auto.
Qed.
Lemma field_unique key vs v v' : field vs key v -> field vs key v' -> v = v'.
Proof.
  intros [(a & b & E & _ & Ha)|[-> Hv]] [(a' & b' & E' & _ & Ha')|[-> Hv']]; auto.
  - subst vs. revert a' E' Ha'. induction a as [|x a IH]; intros [|x' a'] E' Ha'; cbn in E'.
    + now injection E'.
    + injection E' as <- _. exfalso. apply (Ha' (key, v)); cbn; auto.
    + injection E' as -> _. exfalso. apply (Ha (key, v')); cbn; auto.
    + injection E' as <- E'. apply (IH (fun y Hy => Ha y (or_intror Hy)) a' E'). intros y Hy. apply Ha'. now right.
  - exfalso. apply (Hv' (key, v)); auto. subst. apply in_or_app. right. now left.
  - exfalso. apply (Hv (key, v')); auto. subst. apply in_or_app. right. now left.
Qed.

Lemma plain_unescape v : free_of "%" v -> free_of "+" v -> encodes v v.
Proof. induction v as [|c v IH]; cbn; [constructor|]. intros [H1 H2] [H3 H4]. constructor; auto. Qed.
Lemma encodes_fun v v' t : encodes v t -> encodes v' t -> v = v'.
Proof. intros H H'. apply unescape_iff in H, H'. congruence. Qed.

Lemma var_missing key r : missing key r -> var key r = "".
Proof.
  unfold missing, given, var. intros H. destruct (sget key (rqVars r)) as [v|] eqn:E; auto.
  destruct v as [|c v]; auto. exfalso. apply (H (String c v)). split; auto. discriminate.
Qed.
Lemma var_given key r v : given key r v -> var key r = v /\ nonempty v = true.
Proof. intros [H Hn]. unfold var. rewrite H. split; auto. now destruct v. Qed.
