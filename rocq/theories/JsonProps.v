(** C67: what is read back from "_". *)
From Coq Require Import Strings.String Strings.Ascii Lists.List Bool NArith.
From Verif Require Import GoBase UnderscoreModel UnderscoreSpec UnderscoreProofs UnderscoreProps WebProofs JsonModel JsonSpec JsonProofs.
Import ListNotations.
Open Scope string_scope.

(** Some name is always read back, at any later time, and it is the entry
    file name the folder was made with exactly when that is UTF-8. *)
Theorem C67_utf8_partial : forall configured md5 fs0 s i key u id,
  sys_run configured md5 encode_underscore (System fs0 []) s ->
  created s i key u id ->
  (exists name, get_entry_file_name decode_underscore (files s) id = Ok name /\ text name) /\
  (get_entry_file_name decode_underscore (files s) id = Ok (uEntry u) <-> text (uEntry u)).
Proof.
  intros configured md5 fs0 s i key u id R H. apply inv_run in R.
  apply (inv_cohere _ _ _ _ R) in H. unfold cohere in H. cbn [cPoint cUnderscore] in H.
  assert (E : get_entry_file_name decode_underscore (files s) id = Ok (san (uEntry u))).
  { unfold get_entry_file_name. rewrite H. now rewrite decode_encode. }
  rewrite E. split; [exists (san (uEntry u)); split; auto; apply san_text|].
  split; [intros [= E']; now apply san_iff|]. intros T. f_equal. now apply san_iff.
Qed.
Print Assumptions C67_utf8_partial.

Definition latin1 : string := String (ascii_of_N 252) ".xml".

(** An entry file name with a byte that is not UTF-8 *)
Lemma makes_a_folder u : exists s, sys_run true demo_md5 encode_underscore (System [] []) s /\ created s 0%nat "k" u "id-k".
Proof.
  pose proof (sys_refl true demo_md5 encode_underscore (System [] [])) as R.
  apply one_arrives with (key := "k") (u := u) in R.
  apply (one_more _ _ _ _ [] _ _ _ _ _) with (2 := st_keyed true demo_md5 encode_underscore (Call "k" u PIdent) [] eq_refl eq_refl ltac:(discriminate)) in R.
  apply (one_more _ _ _ _ [] _ _ _ _ _) with (2 := st_absent true demo_md5 encode_underscore (Call "k" u (PStat "id-k")) [] _ eq_refl eq_refl) in R.
  apply (one_more _ _ _ _ [] _ _ _ _ _) with (2 := st_mkdir true demo_md5 encode_underscore (Call "k" u (PMkdir "id-k")) [] _ eq_refl eq_refl) in R.
  apply (one_more _ _ _ _ [] _ _ _ _ _) with (2 := st_create true demo_md5 encode_underscore (Call "k" u (POpen "id-k")) (sset "id-k" None []) _ eq_refl eq_refl) in R.
  assert (E : encode_underscore u = "" ++ encode_underscore u ++ "").
  { cbn. now rewrite app_nil_r'. }
  apply (one_more _ _ _ _ [] _ _ _ _ _) with (2 := st_write true demo_md5 encode_underscore (Call "k" u (PWrite "id-k" "" "")) (sset "id-k" (Some "") []) _ "" "" (encode_underscore u) "" eq_refl ltac:(discriminate) E) in R.
  apply (one_more _ _ _ _ [] _ _ _ _ _) with (2 := st_written true demo_md5 encode_underscore (Call "k" u (PWrite "id-k" "" (encode_underscore u))) _ _ _ _ eq_refl eq_refl) in R.
  eexists. split; [exact R|]. reflexivity.
Qed.

Theorem C67_refuted : exists md5 s i key u id,
  sys_run true md5 encode_underscore (System [] []) s /\ created s i key u id /\
  exists name, get_entry_file_name decode_underscore (files s) id = Ok name /\ name <> uEntry u.
Proof.
  destruct (makes_a_folder (Underscore latin1 "")) as (s & R & H).
  exists demo_md5, s, 0%nat, "k", (Underscore latin1 ""), "id-k". split; auto. split; auto.
  apply inv_run in R. apply (inv_cohere _ _ _ _ R) in H. cbn in H.
  eexists. split; [unfold get_entry_file_name; rewrite H; vm_compute; reflexivity|]. discriminate.
Qed.
Print Assumptions C67_refuted.

(** A name with two-, three- and four-byte characters, quotes, a tab and U+2028 *)
Definition nice : string :=
  "a""\<" ++ String (ascii_of_N 9) (utf8 252 ++ utf8 8364 ++ utf8 8232 ++ utf8 128512 ++ ".xml").
Example C67_example : exists s, sys_run true demo_md5 encode_underscore (System [] []) s /\
  created s 0%nat "k" (Underscore nice "a note") "id-k" /\ text nice /\
  get_entry_file_name decode_underscore (files s) "id-k" = Ok nice.
Proof.
  destruct (makes_a_folder (Underscore nice "a note")) as (s & R & H).
  exists s. split; auto. split; auto.
  assert (T : text nice) by (apply san_iff; vm_compute; reflexivity).
  split; [exact T|]. now apply (proj2 (C67_utf8_partial _ _ _ _ _ _ _ _ R H)).
Qed.
