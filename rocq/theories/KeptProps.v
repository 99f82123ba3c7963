(** * KeptProps: C148 (what requests leave behind in memory) *)
From Coq Require Import String List Bool Arith Lia Permutation.
From Verif Require Import GoBase GoSpec GoFacts AttrProofs CatalogModel CatalogSpec CatalogProofs CacheModel CacheSpec CacheProofs CacheProps KeptSpec.
From Verif Require Import SchemaModel InstanceModel HydrateModel ReportModel LoadModel ServerModel ServerSpec ServerProps ReportSpec ReportProps.
Import ListNotations.
Local Open Scope string_scope.

Section Keys.
  Context {F H S N U : Type}.
  Variable sv : services F H S N U.
  Variables dry injected : bool.
  Notation value := (value H S N U).
  Notation prog := (prog H S N U).
  Notation state := (state H S N U).

  Section Named.
  Variable qs : list request.
  Definition named (key : string) (_ : value) : Prop := exists q a, In q qs /\ In a (resources q) /\ resource_key a = key.

  Lemma named_save q a v k : In q qs -> In a (resources q) -> wok named k -> wok named (save dry (resource_key a) v k).
  Proof. intros Q A K. unfold save. destruct dry; auto. split; auto. exists q, a. auto. Qed.
  Lemma named_and_save q a P D : In q qs -> In a (resources q) -> wok named (and_save dry (resource_key a) P D).
  Proof.
    intros Q A [x|] X; [|exact I]. destruct x as [b|m|]; [| |exact I]; apply (named_save q a); auto; exact I.
  Qed.
  Lemma named_bytes l get key miss : wok named miss -> wok named (Lookup l get key as_bytes miss).
  Proof. intro M. split; auto. intros _ [h|b|s|n|u] _; exact I. Qed.
  Lemma named_with q id k : In q qs -> In (ResFolder id) (resources q) -> (forall h, wok named (k h)) -> wok named (with_hydratable sv dry id k).
  Proof.
    intros Q A K. split.
    - intros [f|m|] X; [|exact I..]. intros [y|] Y; [|exact I]. destruct y as [h|m|]; [| |exact I]; apply (named_save q (ResFolder id)); auto; exact I.
    - intros _ [h|b|s|n|u] _; cbn; auto.
  Qed.
  Lemma named_program q : In q qs -> wok named (program sv dry injected q).
  Proof.
    intro Q. destruct q as [id|id slug|id name cr|url| |]; cbn [program].
    - apply (named_with (RCatalog id)); auto; [now left|]. intro h. apply named_bytes. apply (named_and_save (RCatalog id) (ResCatalog id)); auto. right. now left.
    - apply named_bytes, (named_with (RRender id slug)); auto; [right; now left|]. intros [h|]; [|exact I]. destruct (_ && _)%bool.
      + destruct (doc_bytes _ _); [|exact I]. apply (named_save (RRender id slug) (ResRender id slug)); auto; [now left|exact I].
      + apply (named_and_save (RRender id slug) (ResRender id slug)); auto. now left.
    - apply (named_with (RFact id name cr)); auto; [now left|]. intro h. apply named_bytes. apply (named_and_save (RFact id name cr) (ResFact id name cr)); auto. right. now left.
    - unfold hydrate_global_schema. destruct injected; [|exact I]. split.
      + intros [s|m|] X; [|exact I..]. split; [|exact I]. exists (RSchema url), (ResSchema url). repeat split; auto. now left.
      + intros _ [h|b|s|n|u] _; exact I.
    - unfold hydrate_entity_names. destruct injected; [|exact I]. split.
      + intros [s|m|] X; [|exact I..]. split; [|exact I]. exists RNames, ResNames. repeat split; auto. now left.
      + intros _ [h|b|s|n|u] _; exact I.
    - unfold hydrate_unit_type_registry. destruct injected; [|exact I]. split.
      + intros [s|m|] X; [|exact I..]. split; [|exact I]. exists RUtr, ResUtr. repeat split; auto. now left.
      + intros _ [h|b|s|n|u] _; exact I.
  Qed.
  End Named.

  Lemma mset_keys (k : string) (v : value) c : NoDup (map fst c) -> NoDup (map fst (mset String.eqb k v c)) /\
    forall k', In k' (map fst (mset String.eqb k v c)) <-> k' = k \/ In k' (map fst c).
  Proof.
    induction c as [|[k0 v0] c IH]; cbn; intro ND.
    - split; [constructor; auto|]. intuition.
    - inversion ND as [|x l N1 N2]; subst. destruct (String.eqb_spec k0 k) as [->|NE]; cbn.
      + split; [constructor; auto|]. intuition.
      + destruct (IH N2) as [I1 I2]. split; [constructor; auto; rewrite I2; intuition|]. intro k'. rewrite I2. intuition.
  Qed.
  Lemma gstep_keys (s s' : state) : gstep s s' -> NoDup (map fst (stored s)) ->
    NoDup (map fst (stored s')) /\ forall k, In k (map fst (stored s)) -> In k (map fst (stored s')).
  Proof.
    intros G ND. destruct G; cbn [stored] in *; auto. destruct (mset_keys key v c ND) as [A B]. split; auto. intros k K. apply B. auto.
  Qed.
  Lemma run_keys (s s' : state) : run sv dry injected s s' -> NoDup (map fst (stored s)) ->
    NoDup (map fst (stored s')) /\ forall k, In k (map fst (stored s)) -> In k (map fst (stored s')).
  Proof.
    induction 1 as [s|s s1 s2 R IH T]; intro ND; auto. destruct (IH ND) as [A B].
    destruct T as [s1 s2 _ G|c m ts q _]; auto. destruct (gstep_keys _ _ G A) as [A' B']. split; auto.
  Qed.
  Lemma keeps_key (s : state) k : keeps s k <-> In k (map fst (stored s)).
  Proof.
    unfold keeps. rewrite in_map_iff. split; [intros [v V]; exists (k, v); auto|]. intros ([k' v]&<-&V). now exists v.
  Qed.
End Keys.

(** ** C148 *)

(** Whatever was asked, in whatever order and interleaving: things are kept only under the keys of requests
    that were made, one under each, so there are at most two for each different request. *)
Theorem C148_bound_partial : forall (F H S N U : Type) (sv : services F H S N U) dry injected s qs,
  run sv dry injected (initial []) s -> (forall q, In q (requests s) -> In q qs) ->
  NoDup (map fst (stored s)) /\ (forall k, keeps s k -> exists q a, In q qs /\ In a (resources q) /\ resource_key a = k) /\
  kept_count s <= 2 * length qs.
Proof.
  intros F H S N U sv dry injected s qs R Q.
  destruct (run_keys sv dry injected _ _ R) as [ND _]; [constructor|].
  assert (IV : inv sv dry injected (named qs) s).
  { eapply run_inv; [|exact R|split; [contradiction|constructor]]. intros q K. apply named_program. auto. }
  assert (K : forall k, keeps s k -> exists q a, In q qs /\ In a (resources q) /\ resource_key a = k).
  { intros k [v V]. destruct IV as [IV _]. exact (IV k v V). }
  split; auto. split; auto. unfold kept_count. rewrite <- (map_length fst).
  assert (L : length (map resource_key (flat_map resources qs)) <= 2 * length qs).
  { rewrite map_length. clear. induction qs as [|q qs IH]; cbn; auto. rewrite app_length. assert (length (resources q) <= 2) by (destruct q; cbn; auto). lia. }
  etransitivity; [|exact L]. apply NoDup_incl_length; auto. intros k HK. apply keeps_key in HK. destruct (K k HK) as (q&a&A&B&<-).
  apply in_map, in_flat_map. eauto.
Qed.
Print Assumptions C148_bound_partial.

(** Requests for folders that are not there leave nothing behind. *)
Theorem C148_absent_partial : forall (F H S N U : Type) (sv : services F H S N U) dry injected s k,
  run sv dry injected (initial []) s -> separate (requests s) -> keeps s k ->
  exists q a, In q (requests s) /\ In a (resources q) /\ resource_key a = k /\
    forall id, folder_asked a id -> exists f, discover sv id (Ok f).
Proof.
  intros F H S N U sv dry injected s k R SP [v V].
  assert (IV : inv sv dry injected (legal sv (requests s)) s).
  { eapply run_inv; [|exact R|split; [contradiction|constructor]]. intros q K. apply wok_program; auto. }
  destruct IV as [IV _]. destruct (IV k v V) as (q&a&A1&A2&A3&A4). exists q, a. do 3 (split; [assumption|]). intros id FA.
  assert (HY : forall h, hydrated sv id (Ok h) -> exists f, discover sv id (Ok f)) by (intros h HH; inversion HH; eauto).
  destruct FA as [->|[->|[(slug&->)|(name&ref&->)]]]; cbn in A4.
  - destruct A4 as [(h&_&A4)|(_&f&m&A4&_)]; eauto.
  - destruct A4 as (h&A4&_); eauto.
  - destruct A4 as (h&A4&_); eauto.
  - destruct A4 as (h&A4&_); eauto.
Qed.
Print Assumptions C148_absent_partial.

(** Nothing that is kept is ever given up. *)
Theorem C148_never_dropped : forall (F H S N U : Type) (sv : services F H S N U) dry injected s s' k,
  run sv dry injected (initial []) s -> run sv dry injected s s' -> keeps s k -> keeps s' k.
Proof.
  intros F H S N U sv dry injected s s' k R R' K. destruct (run_keys sv dry injected _ _ R) as [ND _]; [constructor|].
  destruct (run_keys sv dry injected _ _ R' ND) as [_ B]. apply keeps_key, B, keeps_key. exact K.
Qed.
Print Assumptions C148_never_dropped.

(** *** Refuted *)
Fixpoint zs (n : nat) : string := match n with 0 => "" | S n => "z" ++ zs n end.
Lemma zs_length n : String.length (zs n) = n.
Proof. induction n; cbn; auto. Qed.
Lemma zs_free c n : c <> "z"%char -> free_of c (zs n).
Proof. intro C. induction n; cbn; auto. Qed.
Lemma zs_ext n : CacheModel.path_ext (zs n) = "".
Proof.
  unfold CacheModel.path_ext. induction n as [|n IH]; auto.
Qed.
Definition wrong (n : nat) : string := zs (33 + n).
Lemma wrong_length n : String.length (wrong n) = 33 + n.
Proof. unfold wrong. apply zs_length. Qed.
Lemma wrong_slug e r n : ~ is_slug e r (wrong n).
Proof. intros (x&_&_&L). rewrite wrong_length in L. lia. Qed.
Lemma wrong_missing n : returned_renderable (out pair_world) pair_report (wrong n) (Err "object not found").
Proof.
  apply (rr_missing _ _ _ (map snd (hInstances pair_report)) (map snd (hSchemas pair_report))); [apply Permutation_refl..|].
  apply find_slug_None. intros e r _ _. apply wrong_slug.
Qed.
Definition wrong_key (n : nat) : string := "f/" ++ wrong n.
Lemma wrong_key_inj i j : wrong_key i = wrong_key j -> i = j.
Proof. unfold wrong_key. intro E. apply (f_equal String.length) in E. cbn in E. change (zs (33 + i)) with (wrong i) in E. rewrite !zs_length in E. lia. Qed.
Definition wrong_request (n : nat) : request := RRender "f" (wrong n).
Definition asks (start n : nat) : list (request * res (CacheModel.value report schema (list (string * list (string * string))) registry)) :=
  map (fun i => (wrong_request i, Err "object not found")) (seq start n).

Section Many.
  Notation sv := (services_of pair_world).
  Variable f : found.
  Hypothesis D : discovered pair_world "f" (Ok f).
  Hypothesis Y : hydrated_as pair_world f (Ok (Report pair_report (fo_bytes f))).
  Notation value := (CacheModel.value report schema (list (string * list (string * string))) registry).
  Definition rep : value := VHyd (Some (Report pair_report (fo_bytes f))).
  Lemma ask_wrong i (c : list (string * value)) : (c = [] \/ mget String.eqb "f" c = Some rep) -> mget String.eqb (wrong_key i) c = None ->
    exists c', solo c (program sv false true (wrong_request i)) (Err "object not found") c' /\
      mget String.eqb "f" c' = Some rep /\ mget String.eqb (wrong_key i) c' <> None /\
      forall k, k <> "f" -> k <> wrong_key i -> mget String.eqb k c' = mget String.eqb k c.
  Proof.
    intros C W. assert (NF : forall i, wrong_key i <> "f") by (intros j E; discriminate E).
    assert (X : CacheModel.path_ext (wrong i) <> ".xhtml" /\ CacheModel.path_ext (wrong i) <> ".htm") by (unfold wrong; rewrite zs_ext; split; discriminate).
    unfold wrong_request. cbn [program]. unfold marshal_renderable, with_hydratable.
    destruct C as [->|C].
    - eexists. split; [|split; [|split]].
      + eapply solo_miss; [reflexivity|]. eapply solo_miss; [reflexivity|].
        eapply solo_compute; [exact D|]. cbv beta iota. eapply solo_call; [exact Y|]. cbv beta iota.
        unfold save. eapply solo_spawn. rewrite (not_document _ X). cbn [andb].
        unfold and_save. eapply solo_call; [exact (wrong_missing i)|]. cbv beta iota. unfold save. eapply solo_spawn. eapply solo_answer.
      + rewrite (mget_mset_neq _ seqP) by (intro E; discriminate E). reflexivity.
      + change ("f" ++ "/" ++ wrong i) with (wrong_key i). rewrite (mget_mset_eq _ seqP). discriminate.
      + intros k K1 K2. change ("f" ++ "/" ++ wrong i) with (wrong_key i). rewrite (mget_mset_neq _ seqP) by auto.
        rewrite (mget_mset_neq _ seqP) by auto. reflexivity.
    - eexists. split; [|split; [|split]].
      + eapply solo_miss; [exact W|]. eapply solo_hit; [exact C|reflexivity|]. cbv beta iota. rewrite (not_document _ X). cbn [andb].
        unfold and_save. eapply solo_call; [exact (wrong_missing i)|]. cbv beta iota. unfold save. eapply solo_spawn. eapply solo_answer.
      + rewrite (mget_mset_neq _ seqP) by (intro E; discriminate E). exact C.
      + change ("f" ++ "/" ++ wrong i) with (wrong_key i). rewrite (mget_mset_eq _ seqP). discriminate.
      + intros k K1 K2. change ("f" ++ "/" ++ wrong i) with (wrong_key i). rewrite (mget_mset_neq _ seqP) by auto. reflexivity.
  Qed.
  Lemma ask_many n : forall start c, (c = [] \/ mget String.eqb "f" c = Some rep) -> (forall i, start <= i -> mget String.eqb (wrong_key i) c = None) ->
    exists c', sequence sv false true c (asks start n) c' /\
      (forall i, start <= i < start + n -> mget String.eqb (wrong_key i) c' <> None) /\
      (forall i, i < start -> mget String.eqb (wrong_key i) c' = mget String.eqb (wrong_key i) c).
  Proof.
    induction n as [|n IH]; intros start c C W.
    - exists c. split; [constructor|]. split; auto. intros i I. lia.
    - destruct (ask_wrong start c C (W _ (le_n _))) as (c1&S1&F1&K1&O1).
      destruct (IH (S start) c1) as (c2&S2&K2&O2); auto.
      { intros i I. rewrite O1; [apply W; lia|discriminate|]. intro E. apply wrong_key_inj in E. lia. }
      exists c2. split; [econstructor; eauto|]. split.
      + intros i I. destruct (Nat.eq_dec i start) as [->|NE]; [rewrite O2 by lia; exact K1|]. apply K2. lia.
      + intros i I. rewrite O2 by lia. apply O1; [discriminate|]. intro E. apply wrong_key_inj in E. lia.
  Qed.
End Many.

(** C148, refuted: a client that asks for grids that do not exist makes the server keep something for each
    such request, though all are refused: for every number there is a history after which it keeps more. *)
Theorem C148_refuted : exists w, forall n, exists s, history w s /\
  (forall q, In q (requests s) -> exists slug, q = RRender "f" slug /\ (forall e r, ~ is_slug e r slug) /\ exists m, answered s q (Err m)) /\
  length (requests s) = n /\ n <= kept_count s.
Proof.
  exists pair_world. intro n. destruct pair_hydrated as (f&D&Y&_).
  destruct (ask_many f D Y n 0 []) as (c&SQ&K&_); auto.
  destruct (history_of _ _ _ _ _ SQ) as (s&R&ST&RQ&A). exists s.
  assert (RQ' : requests s = map wrong_request (seq 0 n)).
  { rewrite RQ. unfold asks. rewrite map_map. reflexivity. }
  split; [|split; [|split]].
  - exists false, true. split; auto. rewrite RQ'. split.
    + intros q Q. apply in_map_iff in Q as (i&<-&_). cbn. repeat split; try discriminate. unfold wrong. apply zs_free. discriminate.
    + intros i m x i' m' x' Q. apply in_map_iff in Q as (j&E&_). discriminate E.
  - intros q Q. rewrite RQ' in Q. apply in_map_iff in Q as (i&<-&I). exists (wrong i). split; [reflexivity|]. split; [intros e r; apply wrong_slug|].
    exists "object not found". apply A. unfold asks. apply in_map_iff. exists i. auto.
  - rewrite RQ', map_length, seq_length. reflexivity.
  - unfold kept_count. rewrite ST. rewrite <- (map_length fst). rewrite <- (seq_length n 0) at 1. rewrite <- (map_length wrong_key).
    apply NoDup_incl_length.
    + apply FinFun.Injective_map_NoDup; [exact wrong_key_inj|apply seq_NoDup].
    + intros k KI. apply in_map_iff in KI as (i&<-&I). apply in_seq in I. specialize (K i I). destruct (mget String.eqb (wrong_key i) c) as [v|] eqn:E; [|congruence].
      apply mget_In in E. apply in_map_iff. exists (wrong_key i, v). auto.
Qed.
Print Assumptions C148_refuted.

(** The hypotheses are met: the history of C148_refuted, and a request for a folder that is not there. *)
Example C148_example : exists s : state string unit unit unit,
  run demo false true (initial []) s /\ separate (requests s) /\
  requests s = [RCatalog "F"; RCatalog "nowhere"; RRender "F" "s"; RRender "F" "s"] /\
  map fst (stored s) = ["F"; "F/"; "F/s"] /\ keeps s "F/s" /\ kept_count s = 3.
Proof.
  destruct (history_of demo false true
              [(RCatalog "F", Ok (VBytes (Some "{catalog}"))); (RCatalog "nowhere", Err "failed to discover folder, no such file");
               (RRender "F" "s", Ok (VBytes (Some "{grid}"))); (RRender "F" "s", Ok (VBytes (Some "{grid}")))]
              [("F", VHyd (Some "a.htm")); ("F/", VBytes (Some "{catalog}")); ("F/s", VBytes (Some "{grid}"))])
    as (s & R & ST & RQ & A).
  { play. }
  cbn [map fst] in RQ. exists s. split; [exact R|]. split.
  { rewrite RQ. apply usual_separate.
    - intros q Q. cbn in Q. destruct Q as [<-|[<-|[<-|[<-|[]]]]]; cbn; repeat split; discriminate.
    - intros i n c i' n' c' Q. cbn in Q. intuition discriminate. }
  split; [exact RQ|]. unfold keeps, kept_count. rewrite ST. repeat split. eexists. right. right. left. reflexivity.
Qed.
