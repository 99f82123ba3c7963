(** C65, C66, C67: creating folders. *)
From Coq Require Import Strings.String Strings.Ascii Lists.List Bool Arith Lia.
From Verif Require Import GoBase GoSpec GoFacts LabelSpec LabelProofs UnderscoreModel UnderscoreSpec UnderscoreProofs.
Import ListNotations.
Open Scope string_scope.

(** ** C65 *)

(** Two calls never create the same folder, and two calls with the same key
    never both create one. *)
Theorem C65_once : forall configured md5 encode fs0 s i j key key' u u' id id',
  sys_run configured md5 encode (System fs0 []) s ->
  created s i key u id -> created s j key' u' id' ->
  id = id' \/ key <> "" /\ key = key' -> i = j.
Proof.
  intros configured md5 encode fs0 s i j key key' u u' id id' R Hi Hj HE.
  apply inv_run in R. unfold created, returned in *.
  assert (E : id = id').
  { destruct HE as [E|[Hk E]]; auto. subst key'.
    assert (Ki : id = md5 key \/ id = "" /\ (None : option failure) <> None) by exact (inv_keyed _ _ _ _ R _ _ Hi Hk).
    assert (Kj : id' = md5 key \/ id' = "" /\ (None : option failure) <> None) by exact (inv_keyed _ _ _ _ R _ _ Hj Hk).
    destruct Ki as [Ki|[_ Ki]], Kj as [Kj|[_ Kj]]; congruence. }
  subst id'. eapply (inv_own _ _ _ _ R); eauto; reflexivity.
Qed.
Print Assumptions C65_once.

(** Every call with a key that returns an id returns the same one, and one
    that creates a folder never returns the empty id instead. *)
Theorem C65_same_id : forall configured md5 encode fs0 s i key u id e,
  sys_run configured md5 encode (System fs0 []) s ->
  returned s i key u (id, e) -> key <> "" -> id = md5 key \/ id = "" /\ e <> None.
Proof.
  intros configured md5 encode fs0 s i key u id e R Hi Hk. apply inv_run in R.
  exact (inv_keyed _ _ _ _ R _ _ Hi Hk).
Qed.
Print Assumptions C65_same_id.

(** Folders that were there are never modified. *)
Theorem C65_untouched : forall configured md5 encode fs0 s id content,
  file_system fs0 -> sys_run configured md5 encode (System fs0 []) s ->
  holds fs0 id content -> holds (files s) id content.
Proof.
  intros configured md5 encode fs0 s id content Hfs R H. apply inv_run in R.
  apply sget_In. apply (inv_old _ _ _ _ R). now apply sget_iff.
Qed.
Print Assumptions C65_untouched.

(** A call that reports an existing folder is right, and a folder that was
    there is never reported as created. *)
Theorem C65_reported : forall configured md5 encode fs0 s i key u id,
  file_system fs0 -> sys_run configured md5 encode (System fs0 []) s ->
  (returned s i key u (id, Some Exists) -> present (files s) id) /\
  (created s i key u id -> present (files s) id /\ ~ present fs0 id).
Proof.
  intros configured md5 encode fs0 s i key u id Hfs R. apply inv_run in R. split.
  - intros H. apply (inv_cohere _ _ _ _ R) in H. destruct H as [x H]. exists x. now apply sget_In.
  - intros H. split.
    + apply (inv_cohere _ _ _ _ R) in H. exists (Some (encode u)). now apply sget_In.
    + assert (E : sget id fs0 = None) by (eapply (inv_new _ _ _ _ R); eauto; reflexivity).
      intros [x Hx]. apply (proj2 (sget_iff _ _ _ Hfs)) in Hx. congruence.
Qed.
Print Assumptions C65_reported.

Definition demo_md5 (k : string) := "id-" ++ k.
Definition demo_encode (u : underscore) := uEntry u.

(** Running a history forwards *)
Lemma one_more configured md5 encode s0 a b fs fs' c c' : sys_run configured md5 encode s0 (System fs (a ++ c :: b)) ->
  call_step configured md5 encode c fs fs' c' -> sys_run configured md5 encode s0 (System fs' (a ++ c' :: b)).
Proof. intros R H. eapply sys_more; [exact R|]. now constructor. Qed.
Lemma one_arrives configured md5 encode s0 fs cs key u : sys_run configured md5 encode s0 (System fs cs) ->
  sys_run configured md5 encode s0 (System fs (cs ++ [Call key u PIdent])).
Proof. intros R. eapply sys_more; [exact R|constructor]. Qed.

(** Two calls with the same key: one creates the folder, the other is told it
    exists. *)
Example C65_example : exists s, sys_run true demo_md5 demo_encode (System [("other", Some "a.xml")] []) s /\
  created s 0 "k" (Underscore "x.htm" "") "id-k" /\ returned s 1 "k" (Underscore "y.htm" "") ("id-k", Some Exists) /\
  files s = [("other", Some "a.xml"); ("id-k", Some "x.htm")].
Proof.
  set (u := Underscore "x.htm" ""). set (v := Underscore "y.htm" ""). set (f0 := [("other", Some "a.xml")]).
  pose proof (sys_refl true demo_md5 demo_encode (System f0 [])) as R.
  apply one_arrives with (key := "k") (u := u) in R. apply one_arrives with (key := "k") (u := v) in R.
  apply (one_more _ _ _ _ [] _ _ _ _ _) with (2 := st_keyed true demo_md5 demo_encode (Call "k" u PIdent) f0 eq_refl eq_refl ltac:(discriminate)) in R.
  apply (one_more _ _ _ _ [_] [] _ _ _ _) with (2 := st_keyed true demo_md5 demo_encode (Call "k" v PIdent) f0 eq_refl eq_refl ltac:(discriminate)) in R.
  apply (one_more _ _ _ _ [] _ _ _ _ _) with (2 := st_absent true demo_md5 demo_encode (Call "k" u (PStat "id-k")) f0 _ eq_refl eq_refl) in R.
  apply (one_more _ _ _ _ [] _ _ _ _ _) with (2 := st_mkdir true demo_md5 demo_encode (Call "k" u (PMkdir "id-k")) f0 _ eq_refl eq_refl) in R.
  apply (one_more _ _ _ _ [] _ _ _ _ _) with (2 := st_create true demo_md5 demo_encode (Call "k" u (POpen "id-k")) (sset "id-k" None f0) _ eq_refl eq_refl) in R.
  apply (one_more _ _ _ _ [] _ _ _ _ _) with (2 := st_write true demo_md5 demo_encode (Call "k" u (PWrite "id-k" "" "")) (sset "id-k" (Some "") f0) _ "" "" "x." "htm" eq_refl ltac:(discriminate) eq_refl) in R.
  apply (one_more _ _ _ _ [] _ _ _ _ _) with (2 := st_write true demo_md5 demo_encode (Call "k" u (PWrite "id-k" "" "x.")) (sset "id-k" (Some "x.") f0) _ "" "x." "htm" "" eq_refl ltac:(discriminate) eq_refl) in R.
  apply (one_more _ _ _ _ [] _ _ _ _ _) with (2 := st_written true demo_md5 demo_encode (Call "k" u (PWrite "id-k" "" "x.htm")) (sset "id-k" (Some "x.htm") f0) _ _ _ eq_refl eq_refl) in R.
  apply (one_more _ _ _ _ [_] [] _ _ _ _) with (2 := st_exists true demo_md5 demo_encode (Call "k" v (PStat "id-k")) (sset "id-k" (Some "x.htm") f0) _ _ eq_refl eq_refl ltac:(discriminate)) in R.
  eexists. split; [exact R|]. repeat split.
Qed.

(** ** C66 *)

(** The process stops after Mkdir: the folder has no entry file name, and a
    later call with the same key finds it and reports that it exists. *)
Theorem C66_refuted : exists md5 encode decode s s' key u id,
  sys_run true md5 encode (System [] []) s /\
  sys_run true md5 encode (crash s) s' /\
  returned s' 0 key u (id, Some Exists) /\
  exists m, get_entry_file_name decode (files s') id = Err m.
Proof.
  set (u := Underscore "x.htm" "").
  pose proof (sys_refl true demo_md5 demo_encode (System [] [])) as R.
  apply one_arrives with (key := "k") (u := u) in R.
  apply (one_more _ _ _ _ [] _ _ _ _ _) with (2 := st_keyed true demo_md5 demo_encode (Call "k" u PIdent) [] eq_refl eq_refl ltac:(discriminate)) in R.
  apply (one_more _ _ _ _ [] _ _ _ _ _) with (2 := st_absent true demo_md5 demo_encode (Call "k" u (PStat "id-k")) [] _ eq_refl eq_refl) in R.
  apply (one_more _ _ _ _ [] _ _ _ _ _) with (2 := st_mkdir true demo_md5 demo_encode (Call "k" u (PMkdir "id-k")) [] _ eq_refl eq_refl) in R.
  pose proof (sys_refl true demo_md5 demo_encode (System (sset "id-k" None []) [])) as R'.
  apply one_arrives with (key := "k") (u := u) in R'.
  apply (one_more _ _ _ _ [] _ _ _ _ _) with (2 := st_keyed true demo_md5 demo_encode (Call "k" u PIdent) (sset "id-k" None []) eq_refl eq_refl ltac:(discriminate)) in R'.
  apply (one_more _ _ _ _ [] _ _ _ _ _) with (2 := st_exists true demo_md5 demo_encode (Call "k" u (PStat "id-k")) (sset "id-k" None []) _ _ eq_refl eq_refl ltac:(discriminate)) in R'.
  do 2 eexists. exists (fun b => Ok (Underscore b "")). do 2 eexists. exists "k", u, "id-k".
  split; [exact R|]. split; [exact R'|]. split; [reflexivity|]. eexists. reflexivity.
Qed.
Print Assumptions C66_refuted.

(** A crash never harms the folders that were complete: those from before,
    and those whose calls had returned. *)
Theorem C66_complete_partial : forall configured md5 encode fs0 s id,
  file_system fs0 -> sys_run configured md5 encode (System fs0 []) s ->
  (forall content, holds fs0 id content -> holds (files (crash s)) id content) /\
  (forall i key u, created s i key u id -> holds (files (crash s)) id (Some (encode u))).
Proof.
  intros configured md5 encode fs0 s id Hfs R. split.
  - intros content H. cbn. eapply C65_untouched; eauto.
  - intros i key u H. apply inv_run in R. apply (inv_cohere _ _ _ _ R) in H. now apply sget_In.
Qed.
Print Assumptions C66_complete_partial.

(** A folder that is new after the crash is complete, unless a call was still
    running, or one had failed to write its entry file name. *)
Theorem C66_half_made_partial : forall configured md5 encode fs0 s id,
  file_system fs0 -> sys_run configured md5 encode (System fs0 []) s ->
  present (files (crash s)) id -> ~ present fs0 id ->
  (exists i key u, created s i key u id /\ holds (files (crash s)) id (Some (encode u))) \/
  (exists i c, nth_error (calls s) i = Some c /\ forall o, cPoint c <> PEnd o) \/
  (exists i key u, returned s i key u ("", Some EncodeFailed)).
Proof.
  intros configured md5 encode fs0 s id Hfs R [x Hx] Hn. apply inv_run in R. cbn in *.
  assert (E : sget id fs0 = None).
  { destruct (sget id fs0) as [y|] eqn:E; auto. exfalso. apply Hn. exists y. now apply sget_In. }
  apply (proj2 (sget_iff _ _ _ (inv_map _ _ _ _ R Hfs))) in Hx.
  destruct (inv_owned _ _ _ _ R id x Hx E) as [(i & [k u p] & Hc & Ho)|(i & [k u p] & Hc & Hg)].
  - destruct p as [|?|?|?|id0|id0 old w|[id0 [e|]]]; cbn in Ho; try discriminate; injection Ho as ->.
    + right. left. eexists. eexists. split; [exact Hc|discriminate].
    + right. left. eexists. eexists. split; [exact Hc|discriminate].
    + left. exists i, k, u. split; [exact Hc|]. apply (inv_cohere _ _ _ _ R) in Hc. now apply sget_In.
  - right. right. unfold gave_up in Hg. cbn in Hg. subst p. exists i, k, u. exact Hc.
Qed.
Print Assumptions C66_half_made_partial.

(** The history of C65_example has a folder from before and a created one. *)
Example C66_example : exists s, sys_run true demo_md5 demo_encode (System [("other", Some "a.xml")] []) s /\
  file_system [("other", Some "a.xml")] /\ present (files (crash s)) "id-k" /\ ~ present [("other", Some "a.xml")] "id-k".
Proof.
  destruct C65_example as (s & R & _ & _ & E). exists s. split; auto. split; [repeat constructor; auto|]. cbn. rewrite E. split.
  - eexists. right. left. reflexivity.
  - intros [x [[=]|[]]].
Qed.

(** ** C67 *)

(** If encoding/json reads back what it writes for [u], the entry file name
    is read back, at any later time. *)
Theorem C67_read_back_partial : forall configured md5 encode decode fs0 s i key u id,
  sys_run configured md5 encode (System fs0 []) s ->
  created s i key u id -> decode (encode u) = Ok u ->
  get_entry_file_name decode (files s) id = Ok (uEntry u).
Proof.
  intros configured md5 encode decode fs0 s i key u id R H Hd. apply inv_run in R.
  apply (inv_cohere _ _ _ _ R) in H. cbn in H. unfold get_entry_file_name. rewrite H. now rewrite Hd.
Qed.
Print Assumptions C67_read_back_partial.
