From Coq Require Import Strings.String Strings.Ascii Lists.List Bool NArith ZArith Lia.
From Verif Require Import GoBase UnderscoreModel JsonModel JsonSpec.
Import ListNotations.
Open Scope string_scope.
Open Scope N_scope.

(** What is read back: every byte outside a well-formed sequence becomes
    U+FFFD *)
Fixpoint san (s : string) : string :=
  match s with
  | EmptyString => ""
  | String a r =>
      if N_of_ascii a <? 128 then String a (san r)
      else
        let bad := append_rune 65533 (san r) in
        match r with
        | EmptyString => bad
        | String b r2 =>
            if utf8_2 a b then String a (String b (san r2))
            else
              match r2 with
              | EmptyString => bad
              | String c r3 =>
                  if utf8_3 a b c then String a (String b (String c (san r3)))
                  else
                    match r3 with
                    | EmptyString => bad
                    | String d r4 =>
                        if utf8_4 a b c d then String a (String b (String c (String d (san r4))))
                        else bad
                    end
              end
        end
  end.

Lemma unicode_escape_app n x y : unicode_escape n x ++ y = unicode_escape n (x ++ y).
Proof. reflexivity. Qed.
Lemma escape_ascii_app c x y : escape_ascii c x ++ y = escape_ascii c (x ++ y).
Proof.
  unfold escape_ascii.
  repeat match goal with |- context [if ?b then _ else _] => destruct b; [reflexivity|] end. reflexivity.
Qed.

Lemma unquote_ascii c r : N_of_ascii c <? 128 = true ->
  unquote (escape_ascii c r) = do vr <- unquote r; Ok (String c (fst vr), snd vr).
Proof.
  destruct c as [[] [] [] [] [] [] [] []]; intros H; try discriminate H; reflexivity.
Qed.

Lemma unquote_fffd r : unquote (unicode_escape 65533 r) = do vr <- unquote r; Ok (append_rune 65533 (fst vr), snd vr).
Proof. reflexivity. Qed.

Lemma high_ne a : N_of_ascii a <? 128 = false ->
  (N_of_ascii a =? 34 = false) /\ (N_of_ascii a =? 92 = false) /\ (N_of_ascii a <? 32 = false).
Proof.
  intros H. apply N.ltb_ge in H. repeat split; try (apply N.eqb_neq; lia). apply N.ltb_ge. lia.
Qed.

Lemma ascii_N_inj a b : N_of_ascii a = N_of_ascii b -> a = b.
Proof. intros H. rewrite <- (ascii_N_embedding a), <- (ascii_N_embedding b). now rewrite H. Qed.

Lemma unquote_separator a b c r : is_separator a b c = true ->
  unquote (unicode_escape (8064 + N_of_ascii c) r) = do vr <- unquote r; Ok (String a (String b (String c (fst vr))), snd vr).
Proof.
  unfold is_separator. rewrite !andb_true_iff, orb_true_iff, !N.eqb_eq. intros [[Ha Hb] Hc].
  assert (a = byte 226) as -> by (apply ascii_N_inj; now rewrite Ha).
  assert (b = byte 128) as -> by (apply ascii_N_inj; now rewrite Hb).
  destruct Hc as [Hc|Hc].
  - assert (c = byte 168) as -> by (apply ascii_N_inj; now rewrite Hc). reflexivity.
  - assert (c = byte 169) as -> by (apply ascii_N_inj; now rewrite Hc). reflexivity.
Qed.

Lemma unquote_escape_len n : forall s rest, (String.length s <= n)%nat ->
  unquote (json_escape s ++ String """" rest) = Ok (san s, rest).
Proof.
  induction n as [|n IH]; intros s rest Hl.
  - destruct s; [reflexivity|cbn in Hl; lia].
  - destruct s as [|a r]; [reflexivity|]. cbn [String.length] in Hl.
    cbn [json_escape san]. destruct (N_of_ascii a <? 128) eqn:Ea.
    + rewrite escape_ascii_app, unquote_ascii, IH by (auto; lia). reflexivity.
    + assert (B : unquote (unicode_escape 65533 (json_escape r) ++ String """" rest) = Ok (append_rune 65533 (san r), rest))
        by (rewrite unicode_escape_app, unquote_fffd, IH by lia; reflexivity).
      destruct (high_ne a Ea) as (H1 & H2 & H3). cbv zeta.
      destruct r as [|b r2]; [exact B|]. destruct (utf8_2 a b) eqn:E2.
      * cbn [append unquote]. cbv zeta. rewrite H1, H2, H3, Ea, E2, IH by (cbn in Hl; lia). reflexivity.
      * destruct r2 as [|c r3]; [exact B|]. destruct (utf8_3 a b c) eqn:E3.
        -- destruct (is_separator a b c) eqn:Es.
           ++ rewrite unicode_escape_app, (unquote_separator a b c), IH by (auto; cbn in Hl; lia). reflexivity.
           ++ cbn [append unquote]. cbv zeta. rewrite H1, H2, H3, Ea, E2, E3, IH by (cbn in Hl; lia). reflexivity.
        -- destruct r3 as [|d r4]; [exact B|]. destruct (utf8_4 a b c d) eqn:E4; [|exact B].
           cbn [append unquote]. cbv zeta. rewrite H1, H2, H3, Ea, E2, E3, E4, IH by (cbn in Hl; lia). reflexivity.
Qed.
Lemma unquote_escape s rest : unquote (json_escape s ++ String """" rest) = Ok (san s, rest).
Proof. now apply (unquote_escape_len (String.length s)). Qed.

Lemma sapp_assoc a b c : ((a ++ b) ++ c)%string = (a ++ (b ++ c))%string.
Proof. induction a; cbn; congruence. Qed.

Lemma field_quoted k v rest : field (quoted k ++ ":" ++ quoted v ++ rest) = Ok (san k, san v, rest).
Proof.
  unfold field, quoted. cbn [append expect bind Ascii.eqb]. rewrite sapp_assoc. cbn [append].
  cbn. rewrite unquote_escape. cbn. rewrite sapp_assoc. cbn [append]. rewrite unquote_escape. reflexivity.
Qed.

Lemma length_app_ge a b : (String.length b <= String.length (a ++ b))%nat.
Proof. induction a; cbn; lia. Qed.

Lemma decode_encode u : decode_underscore (encode_underscore u) = Ok (Underscore (san (uEntry u)) (san (uNote u))).
Proof.
  unfold decode_underscore, encode_underscore.
  set (f1 := quoted "Entry" ++ ":" ++ quoted (uEntry u) ++ "," ++ quoted "Note" ++ ":" ++ quoted (uNote u) ++ "}" ++ String (byte 10) "").
  change (expect "{" ("{" ++ f1)) with (Ok f1). cbv beta iota delta [bind].
  assert (L : exists n, String.length f1 = S (S n)).
  { subst f1. cbn. eexists. reflexivity. }
  destruct L as [n L]. destruct (String.length f1) as [|[|k]]; try discriminate L. clear L n. cbn [fields]. subst f1. rewrite field_quoted. cbn [bind].
  change ("," ++ quoted "Note" ++ ":" ++ quoted (uNote u) ++ "}" ++ String (byte 10) "")
    with (String "," (quoted "Note" ++ ":" ++ quoted (uNote u) ++ "}" ++ String (byte 10) "")).
  cbv iota beta. rewrite field_quoted. reflexivity.
Qed.

(** ** Well-formed sequences are encodings of scalar values *)
Lemma range_iff lo hi c : in_range lo hi c = true <-> lo <= N_of_ascii c <= hi.
Proof. unfold in_range. now rewrite andb_true_iff, !N.leb_le. Qed.

Lemma N_of_byte n : n < 256 -> N_of_ascii (ascii_of_N n) = n.
Proof. apply N_ascii_embedding. Qed.

Lemma to_byte c n : n = N_of_ascii c -> ascii_of_N n = c.
Proof. intros ->. apply ascii_N_embedding. Qed.

Ltac Zify.zify_post_hook ::= Z.to_euclidean_division_equations.

Lemma utf8_2_scalar a b : utf8_2 a b = true ->
  exists n, scalar n /\ utf8 n = String a (String b "").
Proof.
  unfold utf8_2, is_cont. rewrite andb_true_iff, !range_iff. intros [Ha Hb].
  exists ((N_of_ascii a - 192) * 64 + (N_of_ascii b - 128)). split; [left; lia|].
  unfold utf8. destruct (N.ltb_spec ((N_of_ascii a - 192) * 64 + (N_of_ascii b - 128)) 128); [lia|].
  destruct (N.ltb_spec ((N_of_ascii a - 192) * 64 + (N_of_ascii b - 128)) 2048); [|lia].
  now rewrite (to_byte a), (to_byte b) by lia.
Qed.

Lemma utf8_3_scalar a b c : utf8_3 a b c = true ->
  exists n, scalar n /\ utf8 n = String a (String b (String c "")).
Proof.
  unfold utf8_3, is_cont. rewrite !andb_true_iff, !orb_true_iff, !andb_true_iff, !range_iff. intros [Hab Hc].
  exists ((N_of_ascii a - 224) * 4096 + (N_of_ascii b - 128) * 64 + (N_of_ascii c - 128)).
  set (n := (N_of_ascii a - 224) * 4096 + (N_of_ascii b - 128) * 64 + (N_of_ascii c - 128)).
  assert (Hn : n = (N_of_ascii a - 224) * 4096 + (N_of_ascii b - 128) * 64 + (N_of_ascii c - 128)) by reflexivity.
  clearbody n.
  assert (2048 <= n < 65536 /\ scalar n) as [H1 H2].
  { unfold scalar. destruct Hab as [[[Hab|Hab]|Hab]|Hab]; lia. }
  split; [exact H2|].
  unfold utf8. destruct (N.ltb_spec n 128); [lia|]. destruct (N.ltb_spec n 2048); [lia|]. destruct (N.ltb_spec n 65536); [|lia].
  rewrite (to_byte a), (to_byte b), (to_byte c); auto; destruct Hab as [[[Hab|Hab]|Hab]|Hab]; lia.
Qed.

Lemma utf8_4_scalar a b c d : utf8_4 a b c d = true ->
  exists n, scalar n /\ utf8 n = String a (String b (String c (String d ""))).
Proof.
  unfold utf8_4, is_cont. rewrite !andb_true_iff, !orb_true_iff, !andb_true_iff, !range_iff. intros [[Hab Hc] Hd].
  exists ((N_of_ascii a - 240) * 262144 + (N_of_ascii b - 128) * 4096 + (N_of_ascii c - 128) * 64 + (N_of_ascii d - 128)).
  set (n := (N_of_ascii a - 240) * 262144 + (N_of_ascii b - 128) * 4096 + (N_of_ascii c - 128) * 64 + (N_of_ascii d - 128)).
  assert (Hn : n = (N_of_ascii a - 240) * 262144 + (N_of_ascii b - 128) * 4096 + (N_of_ascii c - 128) * 64 + (N_of_ascii d - 128)) by reflexivity.
  clearbody n.
  assert (65536 <= n /\ scalar n) as [H1 H2].
  { unfold scalar. destruct Hab as [[Hab|Hab]|Hab]; lia. }
  split; [exact H2|].
  unfold utf8. destruct (N.ltb_spec n 128); [lia|]. destruct (N.ltb_spec n 2048); [lia|]. destruct (N.ltb_spec n 65536); [lia|].
  rewrite (to_byte a), (to_byte b), (to_byte c), (to_byte d); auto; destruct Hab as [[Hab|Hab]|Hab]; lia.
Qed.

Lemma utf8_cons n s x : utf8 n = x -> scalar n -> text s -> text (x ++ s).
Proof. intros <- H T. now constructor. Qed.

Lemma san_text_len n : forall s, (String.length s <= n)%nat -> text (san s).
Proof.
  induction n as [|n IH]; intros s Hl.
  - destruct s; [constructor|cbn in Hl; lia].
  - destruct s as [|a r]; [constructor|]. cbn [String.length] in Hl. cbn [san].
    destruct (N.ltb_spec (N_of_ascii a) 128) as [Ea|Ea].
    + apply (utf8_cons (N_of_ascii a) (san r) (String a "")); [|left; lia|apply IH; lia].
      unfold utf8. destruct (N.ltb_spec (N_of_ascii a) 128); [|lia]. now rewrite ascii_N_embedding.
    + assert (B : text (append_rune 65533 (san r))).
      { apply (utf8_cons 65533 (san r) (utf8 65533)); auto; [right; lia|apply IH; lia]. }
      cbv zeta. destruct r as [|b r2]; [exact B|]. destruct (utf8_2 a b) eqn:E2.
      { destruct (utf8_2_scalar _ _ E2) as (m & Hm & E).
        refine (utf8_cons m (san r2) _ E Hm _). apply IH. cbn in Hl. lia. }
      destruct r2 as [|c r3]; [exact B|]. destruct (utf8_3 a b c) eqn:E3.
      { destruct (utf8_3_scalar _ _ _ E3) as (m & Hm & E).
        refine (utf8_cons m (san r3) _ E Hm _). apply IH. cbn in Hl. lia. }
      destruct r3 as [|d r4]; [exact B|]. destruct (utf8_4 a b c d) eqn:E4; [|exact B].
      destruct (utf8_4_scalar _ _ _ _ E4) as (m & Hm & E).
      refine (utf8_cons m (san r4) _ E Hm _). apply IH. cbn in Hl. lia.
Qed.
Lemma san_text s : text (san s).
Proof. now apply (san_text_len (String.length s)). Qed.

Lemma in_range_false lo hi c : (N_of_ascii c < lo \/ hi < N_of_ascii c) -> in_range lo hi c = false.
Proof.
  intros H. destruct (in_range lo hi c) eqn:E; auto. apply range_iff in E. lia.
Qed.

Lemma san_scalar n s : scalar n -> san (utf8 n ++ s) = utf8 n ++ san s.
Proof.
  intros Hs. unfold utf8.
  destruct (N.ltb_spec n 128) as [H1|H1].
  { cbn [append san]. rewrite N_of_byte by lia. destruct (N.ltb_spec n 128); [reflexivity|lia]. }
  destruct (N.ltb_spec n 2048) as [H2|H2].
  { cbn [append san]. rewrite N_of_byte by lia. destruct (N.ltb_spec (192 + n / 64) 128); [lia|].
    replace (utf8_2 _ _) with true; [reflexivity|]. symmetry.
    unfold utf8_2, is_cont. rewrite andb_true_iff, !range_iff, !N_of_byte by lia. lia. }
  destruct (N.ltb_spec n 65536) as [H3|H3].
  { cbn [append san]. rewrite N_of_byte by lia. destruct (N.ltb_spec (224 + n / 4096) 128); [lia|].
    replace (utf8_2 _ _) with false.
    2:{ symmetry. unfold utf8_2. rewrite in_range_false; [reflexivity|]. rewrite N_of_byte by lia. lia. }
    replace (utf8_3 _ _ _) with true; [reflexivity|]. symmetry.
    unfold utf8_3, is_cont. rewrite !andb_true_iff, !orb_true_iff, !andb_true_iff, !range_iff, !N_of_byte by lia.
    unfold scalar in Hs. split; [|lia].
    destruct (N.eq_dec (n / 4096) 0) as [E|E]; [left; left; left; lia|].
    destruct (N.eq_dec (n / 4096) 13) as [E'|E']; [left; right; lia|].
    destruct (N.lt_ge_cases (n / 4096) 13); [left; left; right; lia|right; lia]. }
  assert (n < 1114112) by (unfold scalar in Hs; lia).
  cbn [append san]. rewrite N_of_byte by lia. destruct (N.ltb_spec (240 + n / 262144) 128); [lia|].
  replace (utf8_2 _ _) with false.
  2:{ symmetry. unfold utf8_2. rewrite in_range_false; [reflexivity|]. rewrite N_of_byte by lia. lia. }
  replace (utf8_3 _ _ _) with false.
  2:{ symmetry. unfold utf8_3. rewrite !(in_range_false _ _ (ascii_of_N (240 + _))); [reflexivity| | | |]; rewrite N_of_byte by lia; lia. }
  replace (utf8_4 _ _ _ _) with true; [reflexivity|]. symmetry.
  unfold utf8_4, is_cont. rewrite !andb_true_iff, !orb_true_iff, !andb_true_iff, !range_iff, !N_of_byte by lia.
  split; [split; [|lia]|lia].
  destruct (N.eq_dec (n / 262144) 0) as [E|E]; [left; left; lia|].
  destruct (N.eq_dec (n / 262144) 4) as [E'|E']; [right; lia|left; right; lia].
Qed.

Lemma san_of_text s : text s -> san s = s.
Proof. induction 1; [reflexivity|]. rewrite san_scalar by auto. now f_equal. Qed.

Lemma san_iff s : san s = s <-> text s.
Proof. split; [intros <-; apply san_text|apply san_of_text]. Qed.
