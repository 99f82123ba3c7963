(** * ResponseProofs: JSON texts denote one value; what json.Marshal writes denotes what it is given *)
From Coq Require Import Strings.String Strings.Ascii Lists.List Bool NArith ZArith Lia Permutation Sorted.
From Verif Require Import GoBase GoSpec GoFacts InstanceSpec InstanceProofs PeriodSpec PeriodProofs
  UnderscoreModel JsonModel JsonSpec JsonProofs LabelModel FactModel GridModel CalcModel DefModel RenderModel CatalogModel
  ExpressModel ResponseModel ResponseSpec.
Import ListNotations.
Local Open Scope string_scope.

(** ** A reader *)
Definition is_white (c : ascii) : bool :=
  let n := N_of_ascii c in ((n =? 32) || (n =? 9) || (n =? 10) || (n =? 13))%N.
Fixpoint skip (s : string) : string :=
  match s with String c r => if is_white c then skip r else s | "" => "" end.
Lemma white_iff c : white c <-> is_white c = true.
Proof.
  unfold white, is_white. rewrite !orb_true_iff, !N.eqb_eq. simpl. intuition.
Qed.
Lemma skip_whites w s : whites w -> skip (w ++ s) = skip s.
Proof.
  induction 1 as [|c w H W IH]; [reflexivity|]. cbn [append skip]. apply white_iff in H. now rewrite H.
Qed.
Lemma skip_skip s : skip (skip s) = skip s.
Proof. induction s as [|c s IH]; [reflexivity|]. cbn [skip]. destruct (is_white c) eqn:E; auto. cbn [skip]. now rewrite E. Qed.

Definition hexv (c : ascii) : option N := JsonModel.hex_val c.
Lemma hexv_iff c d : hexv c = Some d <-> hex_char c d.
Proof.
  unfold hexv, JsonModel.hex_val, hex_char. cbv zeta. set (n := N_of_ascii c).
  destruct ((48 <=? n)%N && (n <=? 57)%N) eqn:E1; [|destruct ((97 <=? n)%N && (n <=? 102)%N) eqn:E2;
    [|destruct ((65 <=? n)%N && (n <=? 70)%N) eqn:E3]];
  repeat match goal with
  | H : _ && _ = true |- _ => apply andb_true_iff in H as [? ?]
  | H : _ && _ = false |- _ => apply andb_false_iff in H
  end; rewrite ?N.leb_le, ?N.leb_gt in *; (split; [intro K; try discriminate; injection K as <-; lia|intro K; try (f_equal; lia); lia]).
Qed.
Definition hex4v (a b c d : ascii) : option N :=
  match hexv a, hexv b, hexv c, hexv d with
  | Some w, Some x, Some y, Some z => Some (((w * 16 + x) * 16 + y) * 16 + z)%N
  | _, _, _, _ => None
  end.
Definition short (e : ascii) : option N :=
  match find (fun p => Ascii.eqb (fst p) e) short_escapes with Some p => Some (snd p) | None => None end.

Fixpoint plit (s : string) : option (string * string) :=
  match s with
  | "" => None
  | String a r =>
      if Ascii.eqb a """" then Some ("", r)
      else if Ascii.eqb a "\" then
        match r with
        | "" => None
        | String e r2 =>
            match short e with
            | Some n => match plit r2 with Some (t, rest) => Some (utf8 n ++ t, rest) | None => None end
            | None =>
                match r2 with
                | String h1 (String h2 (String h3 (String h4 r3))) =>
                    match hex4v h1 h2 h3 h4 with
                    | None => None
                    | Some n =>
                        if ((55296 <=? n) && (n <? 56320))%N then
                          match r3 with
                          | String _ (String _ (String l1 (String l2 (String l3 (String l4 r4))))) =>
                              match hex4v l1 l2 l3 l4 with
                              | None => None
                              | Some l => match plit r4 with
                                          | Some (t, rest) => Some (utf8 (65536 + (n - 55296) * 1024 + (l - 56320)) ++ t, rest)
                                          | None => None
                                          end
                              end
                          | _ => None
                          end
                        else match plit r3 with Some (t, rest) => Some (utf8 n ++ t, rest) | None => None end
                    end
                | _ => None
                end
            end
        end
      else match plit r with Some (t, rest) => Some (String a t, rest) | None => None end
  end.

Lemma hex4v_ok n e : escape4 n e -> exists a b c d,
  e = String "\" (String "u" (String a (String b (String c (String d ""))))) /\ hex4v a b c d = Some n.
Proof.
  intros (a&b&c&d&w&x&y&z&->&A&B&C&D&->). exists a, b, c, d. split; [reflexivity|].
  unfold hex4v. apply hexv_iff in A, B, C, D. now rewrite A, B, C, D.
Qed.
Lemma short_u : short "u" = None. Proof. reflexivity. Qed.

(** copying bytes that are neither quotes nor backslashes *)
Lemma plit_byte a r : a <> """"%char -> a <> "\"%char ->
  plit (String a r) = match plit r with Some (t, rest) => Some (String a t, rest) | None => None end.
Proof.
  intros Q B. cbn [plit]. destruct (Ascii.eqb_spec a """"); [contradiction|].
  destruct (Ascii.eqb_spec a "\"); [contradiction|]. reflexivity.
Qed.
Lemma byte_ne n : (n < 256)%N -> n <> 34%N -> n <> 92%N -> ascii_of_N n <> """"%char /\ ascii_of_N n <> "\"%char.
Proof.
  intros L Q B. split; intro E; apply (f_equal N_of_ascii) in E; rewrite N_ascii_embedding in E by auto; cbn in E; congruence.
Qed.
Lemma plit_plain n r : scalar n -> n <> 34%N -> n <> 92%N ->
  plit (utf8 n ++ r) = match plit r with Some (t, rest) => Some (utf8 n ++ t, rest) | None => None end.
Proof.
  intros S Q B. unfold scalar in S. unfold utf8.
  destruct (N.ltb_spec n 128); [|destruct (N.ltb_spec n 2048); [|destruct (N.ltb_spec n 65536)]]; cbn [append].
  - destruct (byte_ne n) as [X Y]; auto; [lia|]. now rewrite plit_byte.
  - destruct (byte_ne (192 + n / 64)%N) as [X Y]; try lia.
    destruct (byte_ne (128 + n mod 64)%N) as [X1 Y1]; try lia.
    rewrite !plit_byte by auto. now destruct (plit r) as [[t rest]|].
  - destruct (byte_ne (224 + n / 4096)%N) as [X Y]; try lia.
    destruct (byte_ne (128 + n / 64 mod 64)%N) as [X1 Y1]; try lia.
    destruct (byte_ne (128 + n mod 64)%N) as [X2 Y2]; try lia.
    rewrite !plit_byte by auto. now destruct (plit r) as [[t rest]|].
  - destruct (byte_ne (240 + n / 262144)%N) as [X Y]; try lia.
    destruct (byte_ne (128 + n / 4096 mod 64)%N) as [X1 Y1]; try lia.
    destruct (byte_ne (128 + n / 64 mod 64)%N) as [X2 Y2]; try lia.
    destruct (byte_ne (128 + n mod 64)%N) as [X3 Y3]; try lia.
    rewrite !plit_byte by auto. now destruct (plit r) as [[t rest]|].
Qed.
Lemma short_In e n : In (e, n) short_escapes -> short e = Some n.
Proof. intro H. simpl in H. repeat (destruct H as [H|H]; [injection H as <- <-; reflexivity|]). contradiction. Qed.

Lemma plit_escape e r2 : plit (String "\" (String e r2)) =
  match short e with
  | Some n => match plit r2 with Some (t, rest) => Some (utf8 n ++ t, rest) | None => None end
  | None =>
      match r2 with
      | String h1 (String h2 (String h3 (String h4 r3))) =>
          match hex4v h1 h2 h3 h4 with
          | None => None
          | Some n =>
              if ((55296 <=? n) && (n <? 56320))%N then
                match r3 with
                | String _ (String _ (String l1 (String l2 (String l3 (String l4 r4))))) =>
                    match hex4v l1 l2 l3 l4 with
                    | None => None
                    | Some l => match plit r4 with
                                | Some (t, rest) => Some (utf8 (65536 + (n - 55296) * 1024 + (l - 56320)) ++ t, rest)
                                | None => None
                                end
                    end
                | _ => None
                end
              else match plit r3 with Some (t, rest) => Some (utf8 n ++ t, rest) | None => None end
          end
      | _ => None
      end
  end.
Proof. reflexivity. Qed.

Lemma plit_literal t s : literal t s -> forall rest, plit (t ++ String """" rest) = Some (s, rest).
Proof.
  induction 1 as [|n t s S L Q B H IH|e n t s I H IH|n e t s E S H IH|h l e f t s E F Hh Hl H IH]; intro rest.
  - reflexivity.
  - rewrite append_assoc, plit_plain, IH by auto. reflexivity.
  - change (String "\" (String e t) ++ String """" rest) with (String "\" (String e (t ++ String """" rest))).
    rewrite plit_escape, (short_In _ _ I), IH. reflexivity.
  - apply hex4v_ok in E as (a&b&c&d&->&E). rewrite append_assoc. cbn [append].
    rewrite plit_escape, short_u, E, IH.
    destruct ((55296 <=? n) && (n <? 56320))%N eqn:R; [|reflexivity].
    apply andb_true_iff in R as [R1 R2]. apply N.leb_le in R1. apply N.ltb_lt in R2. unfold scalar in S. lia.
  - apply hex4v_ok in E as (a&b&c&d&->&E). apply hex4v_ok in F as (a1&b1&c1&d1&->&F). rewrite !append_assoc. cbn [append].
    rewrite plit_escape, short_u, E, F, IH.
    destruct ((55296 <=? h) && (h <? 56320))%N eqn:R; [reflexivity|].
    apply andb_false_iff in R as [R|R]; [apply N.leb_gt in R|apply N.ltb_ge in R]; lia.
Qed.

(** the digits at the start *)
Fixpoint pdigits (s : string) : string * string :=
  match s with
  | String c r => if is_digit c then let '(d, rest) := pdigits r in (String c d, rest) else ("", s)
  | "" => ("", "")
  end.
Definition no_digit (s : string) : Prop := match s with String c _ => is_digit c = false | "" => True end.
Lemma pdigits_app d rest : no_digit rest -> (forall z, digits_val z d <> None) -> pdigits (d ++ rest) = (d, rest).
Proof.
  intro N. induction d as [|c d IH]; intro V.
  - cbn [append]. destruct rest as [|c r]; [reflexivity|]. cbn [pdigits]. cbn in N. now rewrite N.
  - cbn [append pdigits]. assert (E : is_digit c = true).
    { specialize (V 0%N). cbn [digits_val] in V. destruct (is_digit c); [reflexivity|congruence]. }
    rewrite E, IH; [reflexivity|]. intro z. specialize (V z) as V0. cbn [digits_val] in V0. rewrite E in V0.
    revert V0. generalize (10 * z + (N_of_ascii c - 48))%N. intros m V0 K. apply V0. revert m z K V0. clear.
    induction d as [|c d IH]; intros m z K V0; [discriminate K|]. cbn [digits_val] in *.
    destruct (is_digit c); [|reflexivity]. eapply IH; eauto.
Qed.
Lemma digits_val_some d z : digits_val z d <> None -> forall z', digits_val z' d <> None.
Proof.
  revert z. induction d as [|c d IH]; intros z V z'; [discriminate|]. cbn [digits_val] in *.
  destruct (is_digit c); [|congruence]. eauto.
Qed.

Definition prefixed (p s : string) : option string :=
  (fix go p s := match p, s with
                 | "", _ => Some s
                 | String a p', String b s' => if Ascii.eqb a b then go p' s' else None
                 | _, "" => None
                 end) p s.
Fixpoint parse (fuel : nat) (s : string) : option (value * string) :=
  match fuel with
  | O => None
  | S f =>
      match skip s with
      | "" => None
      | String c r =>
          if Ascii.eqb c """" then match plit r with Some (t, rest) => Some (JStr t, rest) | None => None end
          else if Ascii.eqb c "[" then
            match skip r with
            | "" => None
            | String d rest => if Ascii.eqb d "]" then Some (JArr [], rest)
                               else match pitems f r with Some (l, rest) => Some (JArr l, rest) | None => None end
            end
          else if Ascii.eqb c "{" then
            match skip r with
            | "" => None
            | String d rest => if Ascii.eqb d "}" then Some (JObj [], rest)
                               else match pmembers f r with Some (l, rest) => Some (JObj l, rest) | None => None end
            end
          else if is_digit c then
            let '(d, rest) := pdigits (String c r) in
            match digits_val 0 d with Some n => Some (JNum (Z.of_N n), rest) | None => None end
          else match prefixed "null" (String c r) with
          | Some rest => Some (JNull, rest)
          | None => match prefixed "true" (String c r) with
          | Some rest => Some (JBool true, rest)
          | None => match prefixed "false" (String c r) with
          | Some rest => Some (JBool false, rest)
          | None => None
          end end end
      end
  end
with pitems (fuel : nat) (s : string) : option (list value * string) :=
  match fuel with
  | O => None
  | S f =>
      match parse f s with
      | None => None
      | Some (v, r) =>
          match skip r with
          | "" => None
          | String c rest =>
              if Ascii.eqb c "]" then Some ([v], rest)
              else if Ascii.eqb c "," then match pitems f rest with Some (l, q) => Some (v :: l, q) | None => None end
              else None
          end
      end
  end
with pmembers (fuel : nat) (s : string) : option (list (string * value) * string) :=
  match fuel with
  | O => None
  | S f =>
      match skip s with
      | "" => None
      | String c r =>
          if Ascii.eqb c """" then
            match plit r with
            | None => None
            | Some (k, r2) =>
                match skip r2 with
                | "" => None
                | String c2 r3 =>
                    if Ascii.eqb c2 ":" then
                      match parse f r3 with
                      | None => None
                      | Some (v, r4) =>
                          match skip r4 with
                          | "" => None
                          | String c3 rest =>
                              if Ascii.eqb c3 "}" then Some ([(k, v)], rest)
                              else if Ascii.eqb c3 "," then
                                match pmembers f rest with Some (l, q) => Some ((k, v) :: l, q) | None => None end
                              else None
                          end
                      end
                    else None
                end
            end
          else None
      end
  end.

(** first characters *)
Definition starts (s : string) (P : ascii -> Prop) : Prop := exists c r, skip s = String c r /\ P c.
Definition closing (c : ascii) : Prop := c = "]"%char \/ c = "}"%char.
Lemma skip_app s r : skip s <> "" -> skip (s ++ r) = skip s ++ r.
Proof.
  induction s as [|c s IH]; intro H; [contradiction|]. cbn [append skip] in *. destruct (is_white c); auto.
Qed.
Lemma starts_app s r P : starts s P -> starts (s ++ r) P.
Proof.
  intros (c&q&E&H). exists c, (q ++ r)%string. split; auto. rewrite skip_app by congruence. now rewrite E.
Qed.
Lemma starts_white w s P : whites w -> starts s P -> starts (w ++ s) P.
Proof. intros W (c&q&E&H). exists c, q. now rewrite skip_whites. Qed.

Scheme json_ind3 := Induction for json Sort Prop
  with items_ind3 := Induction for json_items Sort Prop
  with members_ind3 := Induction for json_members Sort Prop.
Combined Scheme json_mut from json_ind3, items_ind3, members_ind3.

Definition ends_ok (rest : string) : Prop := no_digit rest.
Definition good (s : string) (v : value) : Prop :=
  starts s (fun c => ~ closing c) /\
  forall rest, ends_ok rest -> exists n, forall f, (n <= f)%nat ->
    exists r, parse f (s ++ rest) = Some (v, r) /\ skip r = skip rest.

Lemma digit_white c : is_digit c = true -> is_white c = false.
Proof.
  unfold is_digit, is_white. rewrite andb_true_iff, !N.leb_le. intros [A B].
  rewrite !orb_false_iff, !N.eqb_neq. lia.
Qed.
Lemma whites_no_digit w rest : whites w -> no_digit rest -> no_digit (w ++ rest).
Proof.
  intros W N. destruct W as [|c w H W]; auto. cbn. apply white_iff in H. destruct (is_digit c) eqn:E; auto.
  apply digit_white in E. congruence.
Qed.
Lemma decimal_parse t n : decimal t n -> good t (JNum n).
Proof.
  intros [N _]. pose proof (numeral_nonempty _ _ N) as NE. destruct (numeral_head _ _ N) as (c&r&d&E&D).
  apply (proj2 (digits_numeral t NE n)) in N as (m&V&<-).
  assert (DC : is_digit c = true).
  { subst t. cbn [digits_val] in V. destruct (is_digit c); [reflexivity|discriminate]. }
  split.
  - exists c, r. subst t. cbn [skip]. rewrite (digit_white _ DC). split; auto.
    intros [->| ->]; discriminate DC.
  - intros rest R. exists 1%nat. intros f L. destruct f as [|f]; [lia|]. exists rest. split; [|reflexivity].
    assert (P : pdigits (t ++ rest) = (t, rest)).
    { apply pdigits_app; auto. intros z. apply (digits_val_some t 0%N). congruence. }
    subst t. cbn [append] in *. cbn [parse]. cbn [skip]. rewrite (digit_white _ DC).
    destruct (Ascii.eqb_spec c """"); [subst; discriminate|].
    destruct (Ascii.eqb_spec c "["); [subst; discriminate|].
    destruct (Ascii.eqb_spec c "{"); [subst; discriminate|].
    rewrite DC, P, V. reflexivity.
Qed.
Lemma sapp_cons c s r : String c s ++ r = String c (s ++ r). Proof. reflexivity. Qed.

Lemma json_good :
  (forall t v, json t v -> good t v) /\
  (forall t l, json_items t l -> starts t (fun c => ~ closing c) /\
     forall rest, exists n, forall f, (n <= f)%nat -> pitems f (t ++ String "]" rest) = Some (l, rest)) /\
  (forall t l, json_members t l -> starts t (fun c => ~ closing c) /\
     forall rest, exists n, forall f, (n <= f)%nat -> pmembers f (t ++ String "}" rest) = Some (l, rest)).
Proof.
  apply json_mut.
  - split; [eexists _, _; split; [reflexivity|intros [?|?]; discriminate]|].
    intros rest _. exists 1%nat. intros [|f] L; [lia|]. exists rest. auto.
  - split; [eexists _, _; split; [reflexivity|intros [?|?]; discriminate]|].
    intros rest _. exists 1%nat. intros [|f] L; [lia|]. exists rest. auto.
  - split; [eexists _, _; split; [reflexivity|intros [?|?]; discriminate]|].
    intros rest _. exists 1%nat. intros [|f] L; [lia|]. exists rest. auto.
  - intros t n D. now apply decimal_parse.
  - intros t s L. split; [eexists _, _; split; [reflexivity|intros [?|?]; discriminate]|].
    intros rest _. exists 1%nat. intros [|f] Lf; [lia|]. exists rest. split; [|reflexivity].
    unfold in_quotes. rewrite !append_assoc. cbn [append]. cbn [parse].
    change (skip (String """" (t ++ String """" rest))) with (String """" (t ++ String """" rest)).
    cbn [Ascii.eqb]. cbn -[plit]. now rewrite (plit_literal _ _ L).
  - intros w W. split; [eexists _, _; split; [reflexivity|intros [?|?]; discriminate]|].
    intros rest _. exists 1%nat. intros [|f] Lf; [lia|]. exists rest. split; [|reflexivity].
    rewrite !append_assoc. cbn [append]. cbn [parse].
    change (skip (String "[" (w ++ String "]" rest))) with (String "[" (w ++ String "]" rest)).
    cbn -[skip]. rewrite skip_whites by auto. reflexivity.
  - intros t l H [St IH]. split; [eexists _, _; split; [reflexivity|intros [?|?]; discriminate]|].
    intros rest _. destruct (IH rest) as [n Hn]. exists (S n). intros [|f] Lf; [lia|]. exists rest. split; [|reflexivity].
    rewrite !append_assoc. cbn [append]. cbn [parse].
    change (skip (String "[" (t ++ String "]" rest))) with (String "[" (t ++ String "]" rest)).
    cbn -[skip pitems]. destruct (starts_app t (String "]" rest) _ St) as (c&r&E&NC). rewrite E.
    destruct (Ascii.eqb_spec c "]"); [subst; exfalso; apply NC; now left|]. rewrite Hn by lia. reflexivity.
  - intros w W. split; [eexists _, _; split; [reflexivity|intros [?|?]; discriminate]|].
    intros rest _. exists 1%nat. intros [|f] Lf; [lia|]. exists rest. split; [|reflexivity].
    rewrite !append_assoc. cbn [append]. cbn [parse].
    change (skip (String "{" (w ++ String "}" rest))) with (String "{" (w ++ String "}" rest)).
    cbn -[skip]. rewrite skip_whites by auto. reflexivity.
  - intros t l H [St IH]. split; [eexists _, _; split; [reflexivity|intros [?|?]; discriminate]|].
    intros rest _. destruct (IH rest) as [n Hn]. exists (S n). intros [|f] Lf; [lia|]. exists rest. split; [|reflexivity].
    rewrite !append_assoc. cbn [append]. cbn [parse].
    change (skip (String "{" (t ++ String "}" rest))) with (String "{" (t ++ String "}" rest)).
    cbn -[skip pmembers]. destruct (starts_app t (String "}" rest) _ St) as (c&r&E&NC). rewrite E.
    destruct (Ascii.eqb_spec c "}"); [subst; exfalso; apply NC; now right|]. rewrite Hn by lia. reflexivity.
  - intros w t v W H [St IH]. split; [now apply starts_white|].
    intros rest R. destruct (IH rest R) as [n Hn]. exists n. intros f Lf. destruct (Hn f Lf) as (r&E&Er). exists r.
    split; auto. rewrite <- E, append_assoc. destruct f as [|f]; [reflexivity|]. cbn [parse]. now rewrite skip_whites.
  - intros w t v W H [St IH]. split; [now apply starts_app|].
    intros rest R. destruct (IH (w ++ rest)) as [n Hn]; [now apply whites_no_digit|]. exists n. intros f Lf.
    destruct (Hn f Lf) as (r&E&Er). exists r. rewrite append_assoc. split; auto. now rewrite skip_whites in Er.
  - intros t v H [St IH]. split; auto. intro rest. destruct (IH (String "]" rest) eq_refl) as [n Hn].
    exists (S n). intros [|f] Lf; [lia|]. destruct (Hn f) as (r&E&Er); [lia|]. cbn [pitems]. rewrite E, Er. reflexivity.
  - intros t v u l H [St IH] Hu [Su IHu]. split; [now apply starts_app|]. intro rest.
    destruct (IH (String "," (u ++ String "]" rest)) eq_refl) as [n Hn]. destruct (IHu rest) as [m Hm].
    exists (S (n + m)). intros [|f] Lf; [lia|]. destruct (Hn f) as (r&E&Er); [lia|].
    rewrite !append_assoc. cbn [append]. cbn [pitems]. rewrite E, Er. cbn -[pitems]. rewrite Hm by lia. reflexivity.
  - intros a k b t v A K B H [St IH]. split.
    { apply starts_white; auto. eexists _, _. split; [reflexivity|intros [?|?]; discriminate]. }
    intro rest. destruct (IH (String "}" rest) eq_refl) as [n Hn]. exists (S n). intros [|f] Lf; [lia|].
    destruct (Hn f) as (r&E&Er); [lia|]. unfold in_quotes. rewrite !append_assoc. cbn [append].
    cbn [pmembers]. rewrite skip_whites by auto.
    set (q := b ++ String ":" (t ++ String "}" rest)). 
    change (skip (String """" (k ++ String """" q))) with (String """" (k ++ String """" q)).
    cbn -[plit skip parse]. rewrite (plit_literal _ _ K). unfold q. rewrite skip_whites by auto.
    change (skip (String ":" (t ++ String "}" rest))) with (String ":" (t ++ String "}" rest)).
    cbn -[skip parse]. rewrite E, Er. cbn. destruct v; reflexivity.
  - intros a k b t v u l A K B H [St IH] Hu [Su IHu]. split.
    { apply starts_white; auto. eexists _, _. split; [reflexivity|intros [?|?]; discriminate]. }
    intro rest. destruct (IH (String "," (u ++ String "}" rest)) eq_refl) as [n Hn]. destruct (IHu rest) as [m Hm].
    exists (S (n + m)). intros [|f] Lf; [lia|].
    destruct (Hn f) as (r&E&Er); [lia|]. unfold in_quotes. rewrite !append_assoc. cbn [append].
    cbn [pmembers]. rewrite skip_whites by auto.
    set (q := b ++ String ":" (t ++ String "," (u ++ String "}" rest))). 
    change (skip (String """" (k ++ String """" q))) with (String """" (k ++ String """" q)).
    cbn -[plit skip parse pmembers]. rewrite (plit_literal _ _ K). unfold q. rewrite skip_whites by auto.
    change (skip (String ":" (t ++ String "," (u ++ String "}" rest)))) with (String ":" (t ++ String "," (u ++ String "}" rest))).
    cbn -[skip parse pmembers]. rewrite E, Er. cbn -[pmembers]. rewrite Hm by lia. destruct v; reflexivity.
Qed.

Lemma json_fun t v v' : json t v -> json t v' -> v' = v.
Proof.
  intros H H'. apply (proj1 json_good) in H as [_ H], H' as [_ H'].
  destruct (H "" I) as [n Hn], (H' "" I) as [m Hm].
  destruct (Hn (n + m)%nat) as (r&E&_); [lia|]. destruct (Hm (n + m)%nat) as (r'&E'&_); [lia|]. congruence.
Qed.

(** ** What json.Marshal writes *)

Lemma lit_app_plain n x t s : utf8 n = x -> scalar n -> (32 <= n)%N -> n <> 34%N -> n <> 92%N -> literal t s ->
  literal (x ++ t) (x ++ s).
Proof. intros <-. intros. now constructor. Qed.
Lemma escape_hex n r : (n < 65536)%N -> exists e, unicode_escape n r = e ++ r /\ escape4 n e.
Proof.
  intro L.
  assert (H : forall d, (d < 16)%N -> hex_char (JsonModel.hex_digit d) d).
  { intros d D. unfold hex_char, JsonModel.hex_digit, byte. cbv zeta.
    destruct (N.ltb_spec d 10); rewrite N_ascii_embedding by lia; lia. }
  exists (unicode_escape n ""). split; [reflexivity|]. unfold unicode_escape.
  do 8 eexists. split; [reflexivity|]. do 4 (split; [apply H, N.mod_lt; lia|]).
  lia.
Qed.
Lemma literal_ascii c t s : (N_of_ascii c <? 128)%N = true -> literal t s -> literal (escape_ascii c t) (String c s).
Proof.
  intros L H.
  assert (U : forall n, n = N_of_ascii c -> String c s = utf8 n ++ s).
  { intros n ->. unfold utf8. rewrite L. cbn [append]. now rewrite ascii_N_embedding. }
  apply N.ltb_lt in L. unfold escape_ascii. set (n := N_of_ascii c) in *.
  assert (Sc : scalar n) by (left; lia).
  destruct ((n =? 34) || (n =? 92))%N eqn:E1.
  { rewrite (U n eq_refl). apply orb_true_iff in E1. rewrite !N.eqb_eq in E1.
    assert (E : c = """"%char \/ c = "\"%char).
    { unfold n in E1. destruct E1 as [E1|E1]; [left|right]; apply ascii_N_inj; now rewrite E1. }
    apply lit_short; auto. destruct E as [E|E]; unfold n; rewrite E; cbn; auto. }
  apply orb_false_iff in E1 as [E1 E1']. rewrite N.eqb_neq in E1, E1'.
  destruct (N.eqb_spec n 8) as [E|]; [rewrite (U n eq_refl), E; apply lit_short; auto; cbn; tauto|].
  destruct (N.eqb_spec n 12) as [E|]; [rewrite (U n eq_refl), E; apply lit_short; auto; cbn; tauto|].
  destruct (N.eqb_spec n 10) as [E|]; [rewrite (U n eq_refl), E; apply lit_short; auto; cbn; tauto|].
  destruct (N.eqb_spec n 13) as [E|]; [rewrite (U n eq_refl), E; apply lit_short; auto; cbn; tauto|].
  destruct (N.eqb_spec n 9) as [E|]; [rewrite (U n eq_refl), E; apply lit_short; auto; cbn; tauto|].
  destruct ((n <? 32) || (n =? 60) || (n =? 62) || (n =? 38))%N eqn:E2.
  { destruct (escape_hex n t) as (e&->&He); [lia|]. rewrite (U n eq_refl). now apply lit_escape. }
  rewrite !orb_false_iff, N.ltb_ge in E2. destruct E2 as [[[E2 _] _] _].
  replace (String c t) with (utf8 n ++ t).
  - rewrite (U n eq_refl). now apply lit_plain.
  - unfold utf8. destruct (N.ltb_spec n 128); [|lia]. cbn [append]. unfold n. now rewrite ascii_N_embedding.
Qed.
Lemma utf8_big n a b r : utf8 n = String a (String b r) -> (128 <= n)%N.
Proof. unfold utf8. destruct (N.ltb_spec n 128); [discriminate|auto]. Qed.
Lemma literal_escape_len n : forall s, (String.length s <= n)%nat -> literal (json_escape s) (san s).
Proof.
  induction n as [|n IH]; intros s Hl.
  - destruct s; [constructor|cbn in Hl; lia].
  - destruct s as [|a r]; [constructor|]. cbn [String.length] in Hl.
    cbn [json_escape san]. destruct (N_of_ascii a <? 128)%N eqn:Ea.
    + apply literal_ascii; auto. apply IH. lia.
    + assert (B : literal (unicode_escape 65533 (json_escape r)) (append_rune 65533 (san r))).
      { destruct (escape_hex 65533 (json_escape r)) as (e&->&He); [lia|].
        change (append_rune 65533 (san r)) with (utf8 65533 ++ san r). apply lit_escape; auto; [right; lia|].
        apply IH. lia. }
      cbv zeta. destruct r as [|b r2]; [exact B|]. cbn [String.length] in Hl. destruct (utf8_2 a b) eqn:E2.
      * apply utf8_2_scalar in E2 as (m&Sm&Em). pose proof (utf8_big _ _ _ _ Em).
        apply (lit_app_plain m (String a (String b "")) (json_escape r2) (san r2)); auto; try lia. apply IH. lia.
      * destruct r2 as [|c r3]; [exact B|]. cbn [String.length] in Hl. destruct (utf8_3 a b c) eqn:E3.
        -- apply utf8_3_scalar in E3 as (m&Sm&Em). pose proof (utf8_big _ _ _ _ Em).
           destruct (is_separator a b c) eqn:Es.
           ++ unfold is_separator in Es. rewrite !andb_true_iff, orb_true_iff, !N.eqb_eq in Es.
              destruct Es as [[Ha Hb] Hc].
              destruct (escape_hex (8064 + N_of_ascii c) (json_escape r3)) as (e&->&He); [lia|].
              replace (String a (String b (String c (san r3)))) with (utf8 (8064 + N_of_ascii c) ++ san r3).
              ** apply lit_escape; auto; [left; lia|]. apply IH. lia.
              ** assert (a = byte 226) as -> by (apply ascii_N_inj; now rewrite Ha).
                 assert (b = byte 128) as -> by (apply ascii_N_inj; now rewrite Hb).
                 destruct Hc as [Hc|Hc]; rewrite Hc; [assert (c = byte 168) as -> by (apply ascii_N_inj; now rewrite Hc)
                   |assert (c = byte 169) as -> by (apply ascii_N_inj; now rewrite Hc)]; reflexivity.
           ++ apply (lit_app_plain m (String a (String b (String c ""))) (json_escape r3) (san r3)); auto; try lia.
              apply IH. lia.
        -- destruct r3 as [|d r4]; [exact B|]. cbn [String.length] in Hl. destruct (utf8_4 a b c d) eqn:E4; [|exact B].
           apply utf8_4_scalar in E4 as (m&Sm&Em). pose proof (utf8_big _ _ _ _ Em).
           apply (lit_app_plain m (String a (String b (String c (String d "")))) (json_escape r4) (san r4)); auto; try lia.
           apply IH. lia.
Qed.
Lemma literal_escape s : literal (json_escape s) (san s).
Proof. now apply (literal_escape_len (String.length s)). Qed.
Lemma quoted_in_quotes s : quoted s = in_quotes (json_escape s).
Proof. reflexivity. Qed.

(** [f] writes JSON that shows its argument as [R] says *)
Definition writes {A} (f : A -> string) (R : A -> value -> Prop) : Prop := forall x, exists v, json (f x) v /\ R x v.
Definition written (t : string) (R : value -> Prop) : Prop := exists v, json t v /\ R v.

Lemma shows_san s : shows s (JStr (san s)).
Proof. exists (san s). split; auto. split; [apply san_text|apply san_of_text]. Qed.
Lemma quoted_writes : writes quoted shows.
Proof. intro s. exists (JStr (san s)). split; [|apply shows_san]. rewrite quoted_in_quotes. constructor. apply literal_escape. Qed.
Lemma bool_writes : writes jbool flag.
Proof. intros []; eexists; split; constructor. Qed.
Lemma int_writes : writes jint count.
Proof. intro n. exists (JNum (Z.of_nat n)). split; [|reflexivity]. constructor. apply itoa_decimal. lia. Qed.

Lemma items_join (l : list (string * value)) : l <> [] -> Forall (fun p => json (fst p) (snd p)) l ->
  json_items (join "," (map fst l)) (map snd l).
Proof.
  intros NE F. induction F as [|[t v] l H F IH]; [contradiction|]. destruct l as [|q l].
  - now constructor.
  - cbn [map fst snd] in *. change (join "," (t :: fst q :: map fst l)) with (t ++ "," ++ join "," (fst q :: map fst l)).
    constructor; auto. apply IH. discriminate.
Qed.
Lemma arr_writes {A} (f : A -> string) R : writes f R -> writes (jarr f) (list_of R).
Proof.
  intros W l. assert (P : exists ps, map fst ps = map f l /\ Forall (fun p => json (fst p) (snd p)) ps /\ Forall2 R l (map snd ps)).
  { induction l as [|x l (ps&E&F&G)]; [exists []; repeat split; constructor|].
    destruct (W x) as (v&J&H). exists ((f x, v) :: ps). cbn [map fst snd]. rewrite E. repeat split; constructor; auto. }
  destruct P as (ps&E&F&G). exists (JArr (map snd ps)). split; [|now exists (map snd ps)].
  unfold jarr. rewrite <- E. destruct ps as [|p ps].
  - apply (json_empty_arr ""). constructor.
  - apply json_arr. apply items_join; auto. discriminate.
Qed.

(** members, with the names as they are written *)
Lemma members_join (l : list (string * string * (string * value))) : l <> [] ->
  Forall (fun p => literal (fst (fst p)) (fst (snd p)) /\ json (snd (fst p)) (snd (snd p))) l ->
  json_members (join "," (map (fun p => in_quotes (fst (fst p)) ++ ":" ++ snd (fst p)) l)) (map snd l).
Proof.
  intros NE F. induction F as [|[[k t] v] l [K H] F IH]; [contradiction|]. cbn [fst snd] in K, H. destruct l as [|q l].
  - cbn [map fst snd join]. apply (members_one "" k "" t v); auto; constructor.
  - cbn [map fst snd] in *. set (rest := in_quotes (fst (fst q)) ++ ":" ++ snd (fst q)) in *.
    change (join "," ((in_quotes k ++ ":" ++ t) :: rest :: map (fun p => in_quotes (fst (fst p)) ++ ":" ++ snd (fst p)) l))
      with ((in_quotes k ++ ":" ++ t) ++ "," ++ join "," (rest :: map (fun p => in_quotes (fst (fst p)) ++ ":" ++ snd (fst p)) l)).
    rewrite !append_assoc. apply (members_more "" k "" t v); try constructor; auto. apply IH. discriminate.
Qed.
(** entries written with [quoted] names *)
Lemma jobj_members (l : list (string * string * value)) :
  Forall (fun p => json (snd (fst p)) (snd p)) l ->
  json (jobj (map fst l)) (JObj (map (fun p => (san (fst (fst p)), snd p)) l)).
Proof.
  intro F. unfold jobj. destruct l as [|p0 l0] eqn:El.
  - apply (json_empty_obj ""). constructor.
  - rewrite <- El in *. apply json_obj.
    set (ps := map (fun p : string * string * value => (json_escape (fst (fst p)), snd (fst p), (san (fst (fst p)), snd p))) l).
    replace (map (fun kv => quoted (fst kv) ++ ":" ++ snd kv) (map fst l))
      with (map (fun p : string * string * (string * value) => in_quotes (fst (fst p)) ++ ":" ++ snd (fst p)) ps).
    + replace (map (fun p => (san (fst (fst p)), snd p)) l) with (map snd ps).
      * apply members_join; [unfold ps; rewrite El; discriminate|]. unfold ps. rewrite Forall_map. cbn [fst snd].
        eapply Forall_impl; [|exact F]. intros [[k t] v] H. cbn [fst snd] in *. split; auto. apply literal_escape.
      * unfold ps. rewrite map_map. reflexivity.
    + unfold ps. rewrite !map_map. apply map_ext. intros [[k t] v]. reflexivity.
Qed.

(** an object with plain names *)
Definition plain_name (k : string) : Prop := san k = k.
Lemma obj_writes (fields : list (string * string)) (specs : list (string * (value -> Prop))) :
  Forall2 (fun f s => fst f = fst s /\ plain_name (fst s) /\ written (snd f) (snd s)) fields specs ->
  written (jobj fields) (object specs).
Proof.
  intro F.
  assert (P : exists l, map fst l = fields /\ Forall (fun p => json (snd (fst p)) (snd p)) l /\
    Forall2 (fun f m => fst m = fst f /\ snd f (snd m)) specs (map (fun p => (san (fst (fst p)), snd p)) l)).
  { induction F as [|[k t] [k' R] fields specs (E&N&v&J&H) F (l&E1&F1&G1)]; [exists []; repeat split; constructor|].
    cbn [fst snd] in *. subst k'. exists ((k, t, v) :: l). cbn [map fst snd]. rewrite E1. repeat split; constructor; auto. }
  destruct P as (l&<-&F1&G1). eexists. split; [apply jobj_members, F1|]. eexists. split; [reflexivity|exact G1].
Qed.
Lemma ltb_swo {A} : swo (fun _ : string * A => True) key_less.
Proof. unfold key_less. apply (swo_by _ fst), swo_string. Qed.
Lemma map_writes {A} (f : A -> string) R : writes f R -> writes (jmap f) (map_of R).
Proof.
  intros W m. unfold jmap. pose proof (isort_stably_sorted key_less m ltb_swo) as (P&S&_).
  remember (isort key_less m) as l eqn:El. clear El.
  assert (Q : exists q, map fst q = map (fun kv => (fst kv, f (snd kv))) l /\ Forall (fun p => json (snd (fst p)) (snd p)) q /\
    Forall2 (fun (e : string * A) (n : string * value) => shows (fst e) (JStr (fst n)) /\ R (snd e) (snd n))
      l (map (fun p => (san (fst (fst p)), snd p)) q)).
  { clear P S. induction l as [|[k x] l (q&E1&F1&G1)]; [exists []; repeat split; constructor|].
    destruct (W x) as (v&J&H). exists ((k, f x, v) :: q). cbn [map fst snd]. rewrite E1. repeat split; constructor; auto.
    cbn [fst snd]. split; auto. apply shows_san. }
  destruct Q as (q&E1&F1&G1). eexists. split; [rewrite <- E1; apply jobj_members, F1|].
  eexists l, _. split; [exact P|]. split; [|split; [reflexivity|exact G1]].
  clear - S. induction S as [|a l S IH F]; constructor; auto. eapply Forall_impl; [|exact F].
  intros b H. unfold key_less in H. now apply ltb_false_iff in H.
Qed.

Lemma written_of {A} (f : A -> string) R x : writes f R -> written (f x) (R x).
Proof. intro W. apply W. Qed.

Ltac wfield := split; [reflexivity|split; [reflexivity|cbn [fst snd]]].
Ltac wsimple :=
  first [ apply (quoted_writes _) | apply (bool_writes _) | apply (int_writes _) ].
Lemma langs_writes : writes jlangs languages. Proof. apply map_writes, quoted_writes. Qed.
Lemma labels_writes : writes jlabels labels. Proof. apply map_writes, langs_writes. Qed.
Ltac wfields := repeat (apply Forall2_nil || (apply Forall2_cons; [wfield; try wsimple; try apply (labels_writes _)|])).
Lemma labelled_writes : writes jlabelled concept_with_labels.
Proof. intro x. apply obj_writes. wfields. Qed.
Lemma rset_writes : writes jrset relationship_set.
Proof. intro x. apply obj_writes. wfields. Qed.
Lemma subject_writes : writes jsubject subject_value.
Proof. intro x. apply obj_writes. wfields. apply obj_writes. wfields. Qed.
Lemma catalog_writes : writes jcatalog catalog_value.
Proof.
  intro c. apply obj_writes. wfields.
  - apply (arr_writes _ _ subject_writes).
  - apply (arr_writes _ _ rset_writes).
Qed.
Lemma cell_writes : writes jcell member_value.
Proof.
  intros [e t]. apply obj_writes. cbn [mcExplicit mcTyped]. destruct e as [e|], (nonempty t); cbn [jopt optional app];
    wfields; apply (labelled_writes _).
Qed.
Lemma void_writes : writes jvoid dimension_value.
Proof.
  intros [p i d t]. apply obj_writes. cbn [vcParenthesized vcIndentation vcDimension vcTypedDomain].
  destruct t as [t|]; cbn [jopt optional app]; wfields; apply (labelled_writes _).
Qed.
Lemma expression_writes : writes jexpression expression_value.
Proof. intro x. apply obj_writes. wfields. Qed.
Lemma fact_writes : writes jfact fact_value.
Proof. apply map_writes, expression_writes. Qed.
Lemma expressable_writes : writes jexpressable expressable_value.
Proof.
  intro x. apply obj_writes. wfields.
  - apply obj_writes. wfields.
    + apply (langs_writes _).
    + apply (arr_writes _ _ void_writes).
    + apply (arr_writes _ _ (arr_writes _ _ cell_writes)).
  - apply (fact_writes _).
  - apply (arr_writes _ _ quoted_writes).
Qed.

Definition fields_ok (fields : list (string * string)) (specs : list (string * (value -> Prop))) : Prop :=
  Forall2 (fun f s => fst f = fst s /\ plain_name (fst s) /\ written (snd f) (snd s)) fields specs.
Lemma columns_ok p m v : fields_ok (jcolumns p m v) (columns_fields p m v).
Proof.
  unfold jcolumns, columns_fields. wfields.
  - apply (arr_writes _ _ langs_writes).
  - apply (arr_writes _ _ (arr_writes _ _ cell_writes)).
  - apply (arr_writes _ _ void_writes).
Qed.
Lemma null_written : written "null" null.
Proof. exists JNull. split; constructor. Qed.
Lemma quadrant_ok f g n : fields_ok (jquadrant f g n) (facts_fields f g n).
Proof.
  unfold jquadrant, facts_fields. wfields.
  - apply (arr_writes _ _ (arr_writes _ _ fact_writes)).
  - destruct g as [|r g]; [apply null_written|]. apply (arr_writes _ _ (arr_writes _ _ (arr_writes _ _ int_writes))).
  - destruct g as [|r g]; [apply null_written|]. apply (arr_writes _ _ quoted_writes).
Qed.
Lemma row_writes : writes jindented (row_value "Indentation").
Proof. intro x. apply obj_writes. wfields. Qed.
Lemma primary_writes : writes jprimary (row_value "Level").
Proof. intro x. apply obj_writes. wfields. Qed.
Lemma p_grid_writes : writes jp_grid p_grid_value.
Proof.
  intro p. apply obj_writes. apply Forall2_app; [|apply Forall2_app; [apply columns_ok|apply quadrant_ok]]. wfields.
  apply (arr_writes _ _ row_writes).
Qed.
Lemma contributing_writes : writes jcontributing contributing_value.
Proof. intro x. apply obj_writes. wfields. Qed.
Lemma item_writes : writes jitem item_value.
Proof.
  intro s. apply obj_writes. apply Forall2_app; [wfields|]. apply Forall2_app; [apply columns_ok|].
  apply Forall2_app; [wfields|apply quadrant_ok]. apply (arr_writes _ _ contributing_writes).
Qed.
Lemma member_writes : writes jmember domain_member_value.
Proof. intro x. apply obj_writes. wfields. Qed.
Lemma root_writes : writes jroot root_value.
Proof.
  intro s. apply obj_writes. apply Forall2_app; [wfields; apply (arr_writes _ _ primary_writes)|].
  apply Forall2_app; [apply columns_ok|]. apply Forall2_app; [apply quadrant_ok|wfields].
  - apply (arr_writes _ _ (arr_writes _ _ (arr_writes _ _ member_writes))).
  - apply (arr_writes _ _ labelled_writes).
Qed.
Lemma opt_ok {A} name (f : A -> string) R o : plain_name name -> writes f R -> fields_ok (jopt name f o) (optional name R o).
Proof. intros N W. destruct o as [x|]; constructor; [|constructor]. cbn [fst snd]. repeat split; auto. apply W. Qed.
Lemma link_writes : writes jlink drs_link_value.
Proof.
  intro l. apply obj_writes. apply Forall2_app; [wfields|].
  repeat (apply Forall2_app); apply opt_ok; try reflexivity; intro x; apply obj_writes; wfields.
Qed.
Lemma d_grid_writes : writes jd_grid d_grid_value.
Proof.
  intro d. apply obj_writes. wfields.
  - apply (arr_writes _ _ root_writes).
  - apply obj_writes. wfields.
    + apply (arr_writes _ _ labelled_writes).
    + apply (arr_writes _ _ link_writes).
Qed.
Lemma renderable_writes linked r s g roles langs :
  written (jrenderable linked (Renderable r s (g, roles, langs))) (renderable_value linked r s g roles langs).
Proof.
  unfold jrenderable. cbn [rnGrids rnSet rnSubject]. apply obj_writes. wfields.
  - apply (rset_writes _).
  - apply (subject_writes _).
  - apply (arr_writes _ _ quoted_writes).
  - apply (arr_writes _ _ quoted_writes).
  - apply (p_grid_writes _).
  - apply (d_grid_writes _).
  - apply obj_writes. wfields. destruct linked; [|apply null_written]. apply (arr_writes _ _ item_writes).
Qed.
