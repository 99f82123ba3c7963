(** Theorems about the response cache and the cache of global files. *)
From Coq Require Import Strings.String Strings.Ascii Lists.List Bool NArith Lia.
From Verif Require Import GoBase GoSpec GoFacts CatalogModel CacheModel CacheSpec CacheProofs.
Import ListNotations.
Open Scope string_scope.

(** ** A small set of services for the examples

    Folder "F" is an inline folder with document a.htm, folder "B" can be
    discovered but not hydrated, no other folder exists. *)
Definition demo : services string string unit unit unit :=
  Services
    (fun id r => r = if String.eqb id "F" then Ok "a.htm" else if String.eqb id "B" then Ok "broken" else Err "no such file")
    (fun f r => r = if String.eqb f "broken" then Err "missing instance" else Ok f)
    (fun _ => False)
    (fun h => h) (fun f => f) (fun _ => Some "<html/>")
    (fun _ r => r = Ok (Some "{catalog}"))
    (fun slug _ r => r = if String.eqb slug "s" then Ok (Some "{grid}") else Err "no such slug")
    (fun _ _ => False)
    (fun name cr _ r => r = if (String.eqb name "p:A" && String.eqb cr "c")%bool then Ok (Some "{fact}") else Ok None)
    (fun url r => r = if String.eqb url "http://x//y" then Ok tt else Err "EOF")
    (fun r => r = Ok tt)
    (fun r => r = Ok tt).
Example demo_returns : always_returns demo.
Proof. repeat split; cbn; eauto. Qed.

Ltac solo :=
  repeat first
    [ eapply solo_answer
    | eapply solo_miss; [reflexivity|]
    | eapply solo_hit; [reflexivity|reflexivity|]
    | eapply solo_call; [reflexivity|]
    | eapply solo_compute; [reflexivity|]
    | eapply solo_spawn ].
Lemma key_pAc : fact_key "F" "p" "A:c" = "2c09ed5d8f4557a21e1b202f75d6305c".
Proof. vm_compute. reflexivity. Qed.
Lemma key_pAc' : fact_key "F" "p:A" "c" = "2c09ed5d8f4557a21e1b202f75d6305c".
Proof. vm_compute. reflexivity. Qed.
Ltac play :=
  rewrite ?key_pAc, ?key_pAc';
  repeat first
    [ eapply seq_nil
    | eapply seq_cons; [cbn [program]; unfold marshal_expressable; rewrite ?key_pAc, ?key_pAc'; solo|] ].

(** A sequence of requests served one by one is a history. *)
Lemma history_of {F H S N U} (sv : services F H S N U) dry injected l c :
  sequence sv dry injected [] l c ->
  exists s, run sv dry injected (initial []) s /\ stored s = c /\ requests s = map fst l /\
            forall q r, In (q, r) l -> answered s q r.
Proof.
  intros Hs.
  destruct (sequence_run sv dry injected [] l c Hs (fun _ => RW 0 false) []) as (m & ts & R & _ & _ & HA & HR).
  - now intros l0.
  - constructor.
  - exists (State c m ts). repeat split; auto.
Qed.

(** ** C56: the response cache is transparent for successful responses *)

Lemma explained_of {F H S N U} (sv : services F H S N U) dry injected s q r :
  run sv dry injected (initial []) s -> separate (requests s) -> answered s q r ->
  explained sv injected q r.
Proof.
  intros Hr Hs Ha.
  assert (Hq : In q (requests s)).
  { unfold requests. apply in_flat_map. exists (Some q, TRun (Answer r)). split; auto. now left. }
  apply (may_program sv dry injected (requests s)); auto.
  eapply inv_answered; eauto. eapply run_inv; eauto.
  - intros q0 Hq0. apply wok_program; auto.
  - split; [contradiction|constructor].
Qed.

(** Two facts share a cache entry: "p:A" in context "c" is answered with the
    answer to "p" in context "A:c". *)
Theorem C56_refuted : exists (F H S N U : Type) (sv : services F H S N U) s q,
  run sv false true (initial []) s /\
  (forall r, uncached sv true q r -> r = Ok (VBytes (Some "{fact}"))) /\
  answered s q (Ok (VBytes None)) /\ ~ uncached sv true q (Ok (VBytes None)).
Proof.
  destruct (history_of demo false true
              [(RFact "F" "p" "A:c", Ok (VBytes None)); (RFact "F" "p:A" "c", Ok (VBytes None))]
              [("F", VHyd (Some "a.htm")); (fact_key "F" "p" "A:c", VBytes None)])
    as (s & R & _ & _ & HA).
  { play. }
  exists string, string, unit, unit, unit, demo, s, (RFact "F" "p:A" "c").
  assert (HU : forall r, uncached demo true (RFact "F" "p:A" "c") r -> r = Ok (VBytes (Some "{fact}"))).
  { intros r [(m & Hm & ->)|[[Hm ->]|(h & a & Hh & -> & ->)]]; auto;
      inversion Hm as [m' Hd E|Hd E|f r' Hd Hy E]; cbn in *; try discriminate;
      injection Hd as ->; cbn in Hy; discriminate. }
  repeat split; auto.
  - apply HA. right. now left.
  - intros Hc. apply HU in Hc. discriminate.
Qed.
Print Assumptions C56_refuted.

(** As long as no two different resources of the history share a key. *)
Theorem C56_transparent_partial : forall (F H S N U : Type) (sv : services F H S N U) dry injected s q r,
  run sv dry injected (initial []) s -> separate (requests s) ->
  answered s q r ->
  (forall r', uncached sv injected q r' -> exists v, r' = Ok v) ->
  uncached sv injected q r.
Proof.
  intros F H S N U sv dry injected s q r Hr Hs Ha Hok.
  destruct (explained_of sv dry injected s q r Hr Hs Ha) as [HU|HM]; auto.
  assert (HX : forall id P m, uncached sv injected q = served sv id P ->
            (exists f, discover sv id (Ok f) /\ hydrate sv f (Err m)) \/ (exists h, hydrated sv id (Ok h) /\ P h (Err m)) -> False).
  { intros id P m E HE. destruct (Hok (Err m)) as [v Hv]; [|discriminate]. rewrite E.
    destruct HE as [(f & H1 & H2)|(h & H1 & H2)].
    - left. exists m. split; auto. eapply hy_found; eauto.
    - right; right. exists h, (Err m). auto. }
  destruct q as [id|id slug|id name cr|url| |]; try contradiction; cbn [respond] in HM;
    destruct HM as [(-> & f & m & H1 & H2)|(-> & h & m & H1 & H2)]; exfalso;
    try (eapply (HX id _ m); [reflexivity|eauto]).
Qed.
Print Assumptions C56_transparent_partial.

(** The same for the requests as they arrive over HTTP. *)
Theorem C56_usual_partial : forall (F H S N U : Type) (sv : services F H S N U) dry injected s q r,
  run sv dry injected (initial []) s ->
  (forall q', In q' (requests s) -> usual q') -> no_collision (requests s) ->
  answered s q r ->
  (forall r', uncached sv injected q r' -> exists v, r' = Ok v) ->
  uncached sv injected q r.
Proof. intros. eapply C56_transparent_partial; eauto using usual_separate. Qed.
Print Assumptions C56_usual_partial.

(** Conversely, whatever the computation without the cache may answer, a server may:
    the cache hides nothing. *)
Section Attained.
  Context {F H S N U : Type} (sv : services F H S N U) (dry injected : bool).
  Lemma solo_hydrated c id k r r' c' : (if negb dry then mget String.eqb id c else None) = None -> hydrated sv id r ->
    match r with
    | Ok h => solo (if dry then c else mset String.eqb id (VHyd (Some h)) c) (k (Some h)) r' c'
    | Err m => r' = Err m
    | Panic => r' = Panic
    end -> exists c'', solo c (with_hydratable sv dry id k) r' c''.
  Proof.
    intros M Y K. unfold with_hydratable. destruct Y as [m D|D|f r D Y].
    - subst r'. exists c. eapply solo_miss; auto. eapply solo_compute; [exact D|]. apply solo_answer.
    - subst r'. exists c. eapply solo_miss; auto. eapply solo_compute; [exact D|]. apply solo_answer.
    - destruct r as [h|m|].
      + exists c'. eapply solo_miss; auto. eapply solo_compute; [exact D|]. cbv beta iota. eapply solo_call; [exact Y|]. cbv beta iota.
        unfold save. destruct dry; [exact K|now apply solo_spawn].
      + subst r'. exists (if dry then c else mset String.eqb id (VHyd None) c). eapply solo_miss; auto. eapply solo_compute; [exact D|]. cbv beta iota. eapply solo_call; [exact Y|]. cbv beta iota.
        unfold save. destruct dry; [apply solo_answer|apply solo_spawn, solo_answer].
      + subst r'. eexists. eapply solo_miss; auto. eapply solo_compute; [exact D|]. cbv beta iota. eapply solo_call; [exact Y|]. apply solo_answer.
  Qed.
  Lemma solo_and_save c key (P : res (option string) -> Prop) D a : P a -> exists c', solo c (and_save dry key P D) (sent a : res (value H S N U)) c'.
  Proof.
    intro HP. unfold and_save, save. destruct a, dry; eexists; (eapply solo_call; [exact HP|]); cbv beta iota; try apply solo_spawn; apply solo_answer.
  Qed.
  Lemma solo_served c id (P : H -> res (option string) -> Prop) r k :
    (if negb dry then mget String.eqb id c else None) = None -> served sv id P r ->
    (forall h a, P h a -> exists c', solo (if dry then c else mset String.eqb id (VHyd (Some h)) c) (k (Some h)) (sent a : res (value H S N U)) c') ->
    exists c', solo c (with_hydratable sv dry id k) r c'.
  Proof.
    intros M [(m&Y&->)|[(Y&->)|(h&a&Y&HP&->)]] K.
    - apply (solo_hydrated c id k (Err m) _ []); auto.
    - apply (solo_hydrated c id k Panic _ []); auto.
    - destruct (K h a HP) as (c'&Q). apply (solo_hydrated c id k (Ok h) _ c'); auto.
  Qed.
  Lemma other_key id (h : H) key : id <> key -> (if negb dry then mget String.eqb key (if dry then [] else mset String.eqb id (VHyd (Some h)) ([] : list (string * value H S N U))) else None) = None.
  Proof. intro N0. destruct dry; auto. cbn [negb]. rewrite (mget_mset_neq _ seqP); auto. Qed.
  Lemma solo_uncached q r : separate [q] -> uncached sv injected q r -> exists c, solo [] (program sv dry injected q) r c.
  Proof.
    intros SP UN.
    assert (G : forall X (wrap : X -> value H S N U) (P : res X -> Prop) key l hit,
       global_answer injected wrap P r ->
       exists c, solo ([] : list (string * value H S N U))
         (if injected then Lookup l true key hit (Compute (res X) P (fun r => match r with Ok s => Spawn l key (wrap s) (Answer (Ok (wrap s))) | Err m => Answer (Err m) | Panic => Answer Panic end))
          else Answer (Err "no accessible cache")) r c).
    { intros X wrap P key l hit G. unfold global_answer in G. destruct injected; [|subst; eexists; apply solo_answer].
      destruct G as (a&HP&->). destruct a; eexists; (eapply solo_miss; [reflexivity|]); (eapply solo_compute; [exact HP|]); try apply solo_spawn; apply solo_answer. }
    destruct q as [id|id slug|id name ref|url| |]; cbn [program uncached] in *.
    - apply (solo_served [] id _ r _ ltac:(now destruct dry) UN). intros h a HP.
      destruct (solo_and_save (if dry then [] else mset String.eqb id (VHyd (Some h)) []) (id ++ "/") (catalog sv h) False a HP) as (c'&Q).
      exists c'. apply solo_miss; auto. apply other_key. intro Z. apply (f_equal String.length) in Z. rewrite slength_app in Z. cbn in Z. lia.
    - unfold marshal_renderable.
      assert (K : exists c', solo [] (with_hydratable sv dry id (fun h => match h with
         | None => Answer Panic
         | Some h => if (String.eqb (path_ext slug) ".xhtml" || String.eqb (path_ext slug) ".htm") && String.eqb (entry_name sv (folder_of sv h)) slug
                     then match doc_bytes sv (folder_of sv h) with
                          | None => Answer Panic
                          | Some d => save dry (id ++ "/" ++ slug) (VBytes (Some d)) (Answer (Ok (VBytes (Some d)))) end
                     else and_save dry (id ++ "/" ++ slug) (renderable sv slug h) (renderable_dies sv slug h) end)) r c').
      { apply (solo_served [] id _ r _ ltac:(now destruct dry) UN). intros h a [[ND E]|[ND HP]].
        - apply names_document_iff in ND. rewrite ND. destruct (doc_bytes sv (folder_of sv h)); subst a; cbn [sent]; unfold save; [destruct dry; eexists; [|apply solo_spawn]|eexists]; apply solo_answer.
        - destruct (_ && _)%bool eqn:B; [elim ND; now apply names_document_iff|]. now apply solo_and_save. }
      destruct K as (c'&K). exists c'. apply solo_miss; [now destruct dry|exact K].
    - apply (solo_served [] id _ r _ ltac:(now destruct dry) UN). intros h a HP.
      destruct (solo_and_save (if dry then [] else mset String.eqb id (VHyd (Some h)) []) (fact_key id name ref) (expressable sv name ref h) False a HP) as (c'&Q).
      exists c'. apply solo_miss; auto. apply other_key. intro Z.
      specialize (SP _ _ (ResFolder id) (ResFact id name ref) (or_introl eq_refl) (or_introl eq_refl) (or_introl eq_refl) (or_intror (or_introl eq_refl)) Z). discriminate SP.
    - apply (G _ VSchema); auto.
    - apply (G _ VNames); auto.
    - apply (G _ VUtr); auto.
  Qed.
End Attained.
Theorem C56_attained : forall (F H S N U : Type) (sv : services F H S N U) dry injected q r,
  separate [q] -> uncached sv injected q r ->
  exists s, run sv dry injected (initial []) s /\ requests s = [q] /\ answered s q r.
Proof.
  intros F H S N U sv dry injected q r SP UN. destruct (solo_uncached sv dry injected q r SP UN) as (c&Q).
  destruct (history_of sv dry injected [(q, r)] c) as (s&R&_&E&A).
  { eapply seq_cons; [exact Q|apply seq_nil]. }
  exists s. split; auto. split; auto. apply A. now left.
Qed.
Print Assumptions C56_attained.

(** A history that meets the hypotheses: a catalog asked for twice (the
    second answer comes from the cache), a renderable and a fact. *)
Example C56_example : exists s,
  run demo false true (initial []) s /\
  requests s = [RNames; RCatalog "F"; RCatalog "F"; RRender "F" "s"; RFact "F" "p:A" "c"] /\
  (forall q, In q (requests s) -> usual q) /\ no_collision (requests s) /\
  answered s (RCatalog "F") (Ok (VBytes (Some "{catalog}"))) /\
  answered s (RFact "F" "p:A" "c") (Ok (VBytes (Some "{fact}"))) /\
  (forall r, uncached demo true (RCatalog "F") r -> exists v, r = Ok v).
Proof.
  destruct (history_of demo false true
              [(RNames, Ok (VNames tt)); (RCatalog "F", Ok (VBytes (Some "{catalog}")));
               (RCatalog "F", Ok (VBytes (Some "{catalog}"))); (RRender "F" "s", Ok (VBytes (Some "{grid}")));
               (RFact "F" "p:A" "c", Ok (VBytes (Some "{fact}")))]
              [("names.json", VNames tt); ("F", VHyd (Some "a.htm")); ("F/", VBytes (Some "{catalog}"));
               ("F/s", VBytes (Some "{grid}")); (fact_key "F" "p:A" "c", VBytes (Some "{fact}"))])
    as (s & R & _ & E & HA).
  { play. }
  cbn [map fst] in E.
  exists s. split; [exact R|]. split; [exact E|]. rewrite E. repeat split.
  - intros q Hq. cbn in Hq. repeat destruct Hq as [<-|Hq]; try contradiction; cbn; repeat split; try discriminate; intuition discriminate.
  - intros i n c i' n' c' H1 H2 f _. cbn in H1, H2.
    repeat destruct H1 as [H1|H1]; try discriminate; try contradiction;
    repeat destruct H2 as [H2|H2]; try discriminate; try contradiction. congruence.
  - apply HA. right. now left.
  - apply HA. do 4 right. now left.
  - intros r [(m & Hm & ->)|[[Hm ->]|(h & a & Hh & -> & ->)]]; [| |cbn; eauto];
      inversion Hm as [m' Hd E0|Hd E0|f r' Hd Hy E0]; cbn in *; try discriminate;
      injection Hd as ->; cbn in Hy; discriminate.
Qed.

(** ** C57: a failing request keeps failing the same way *)

(** A folder that cannot be hydrated: an error first, then a panic. *)
Theorem C57_hydration_refuted : exists (F H S N U : Type) (sv : services F H S N U) s q m,
  run sv false true (initial []) s /\ requests s = [q; q] /\
  (forall r, uncached sv true q r -> r = Err m) /\
  answered s q (Err m) /\ answered s q Panic.
Proof.
  destruct (history_of demo false true
              [(RCatalog "B", Err "missing instance"); (RCatalog "B", Panic)] [("B", VHyd None)])
    as (s & R & _ & E & HA).
  { play. }
  exists string, string, unit, unit, unit, demo, s, (RCatalog "B"), "missing instance".
  split; [exact R|]. split; [exact E|]. repeat split.
  - intros r [(m & Hm & ->)|[[Hm ->]|(h & a & Hh & -> & ->)]].
    + inversion Hm as [m' Hd E0|Hd E0|f r' Hd Hy E0]; cbn in *; try discriminate.
      injection Hd as ->. cbn in Hy. congruence.
    + inversion Hm as [m' Hd E0|Hd E0|f r' Hd Hy E0]; cbn in *; try discriminate.
      injection Hd as ->. cbn in Hy. congruence.
    + inversion Hh as [m' Hd E0|Hd E0|f r' Hd Hy E0]; cbn in *; try discriminate.
      injection Hd as ->. cbn in Hy. congruence.
  - apply HA. now left.
  - apply HA. right. now left.
Qed.
Print Assumptions C57_hydration_refuted.

(** An unknown slug: an error first, then a success with an empty body. *)
Theorem C57_response_refuted : exists (F H S N U : Type) (sv : services F H S N U) s q m,
  run sv false true (initial []) s /\ requests s = [q; q] /\
  (forall r, uncached sv true q r -> r = Err m) /\
  answered s q (Err m) /\ answered s q (Ok (VBytes None)).
Proof.
  destruct (history_of demo false true
              [(RRender "F" "t", Err "no such slug"); (RRender "F" "t", Ok (VBytes None))]
              [("F", VHyd (Some "a.htm")); ("F/t", VBytes None)])
    as (s & R & _ & E & HA).
  { play. }
  exists string, string, unit, unit, unit, demo, s, (RRender "F" "t"), "no such slug".
  split; [exact R|]. split; [exact E|]. repeat split.
  - intros r [(m & Hm & ->)|[[Hm ->]|(h & a & Hh & Ha & ->)]].
    + inversion Hm as [m' Hd E0|Hd E0|f r' Hd Hy E0]; cbn in *; try discriminate.
      injection Hd as ->. cbn in Hy. congruence.
    + inversion Hm as [m' Hd E0|Hd E0|f r' Hd Hy E0]; cbn in *; try discriminate.
      injection Hd as ->. cbn in Hy. congruence.
    + destruct Ha as [[(_ & b & [Hb|Hb]) _]|[_ ->]]; [| |reflexivity];
        exfalso; destruct b as [|x [|y b]]; discriminate.
  - apply HA. now left.
  - apply HA. right. now left.
Qed.
Print Assumptions C57_response_refuted.

(** A folder that cannot be discovered keeps being answered with the error of
    the discovery. *)
Theorem C57_discovery_partial : forall (F H S N U : Type) (sv : services F H S N U) dry injected s q id r,
  run sv dry injected (initial []) s -> separate (requests s) ->
  answered s q r -> In (ResFolder id) (resources q) ->
  (forall d, discover sv id d -> exists m, d = Err m) ->
  exists m, discover sv id (Err m) /\ r = Err ("failed to discover folder, " ++ m).
Proof.
  intros F H S N U sv dry injected s q id r Hr Hs Ha Hid Hd.
  assert (HH : forall x, hydrated sv id x -> exists m, discover sv id (Err m) /\ x = Err ("failed to discover folder, " ++ m)).
  { intros x Hx. inversion Hx as [m Hm|Hm|f x' Hm]; subst; [eauto| |]; apply Hd in Hm as [m' [=]]. }
  assert (HS : forall P, served sv id P r -> exists m, discover sv id (Err m) /\ r = Err ("failed to discover folder, " ++ m)).
  { intros P [(m & Hm & ->)|[[Hm ->]|(h & a & Hh & _)]].
    - apply HH in Hm as (m' & H1 & [= ->]). eauto.
    - apply HH in Hm as (m' & _ & [=]).
    - apply HH in Hh as (m' & _ & [=]). }
  destruct (explained_of sv dry injected s q r Hr Hs Ha) as [HU|HM];
    destruct q as [id0|id0 slug|id0 name cr|url| |]; cbn in Hid;
    repeat destruct Hid as [Hid|Hid]; try discriminate; try contradiction; injection Hid as ->; eauto.
  all: destruct HM as [(-> & f & m & H1 & H2)|(-> & h & m & H1 & H2)];
    [apply Hd in H1 as [m' [=]]|apply HH in H1 as (m' & _ & [=])].
Qed.
Print Assumptions C57_discovery_partial.

(** A request that always fails without a cache is never answered with
    content: the answer is an error, a panic or an empty body. *)
Theorem C57_no_content_partial : forall (F H S N U : Type) (sv : services F H S N U) dry injected s q r,
  run sv dry injected (initial []) s -> separate (requests s) ->
  answered s q r ->
  (forall r', uncached sv injected q r' -> exists m, r' = Err m) ->
  uncached sv injected q r \/ (of_folder q /\ (r = Panic \/ r = Ok (VBytes None))).
Proof.
  intros F H S N U sv dry injected s q r Hr Hs Ha He.
  destruct (explained_of sv dry injected s q r Hr Hs Ha) as [HU|HM]; auto. right.
  destruct q as [id|id slug|id name cr|url| |]; try contradiction; split; cbn; auto;
    destruct HM as [(-> & _)|(-> & _)]; auto.
Qed.
Print Assumptions C57_no_content_partial.

Example C57_example : exists s,
  run demo false true (initial []) s /\ requests s = [RCatalog "X"; RCatalog "X"] /\
  separate (requests s) /\
  (forall d, discover demo "X" d -> exists m, d = Err m) /\
  answered s (RCatalog "X") (Err "failed to discover folder, no such file").
Proof.
  destruct (history_of demo false true
              [(RCatalog "X", Err "failed to discover folder, no such file");
               (RCatalog "X", Err "failed to discover folder, no such file")] [])
    as (s & R & _ & E & HA).
  { play. }
  exists s. split; [exact R|]. split; [exact E|]. cbn [map fst] in E. rewrite E. repeat split.
  - apply usual_separate.
    + intros q Hq. cbn in Hq. repeat destruct Hq as [<-|Hq]; try contradiction; cbn; repeat split; try discriminate; intuition discriminate.
    + intros i n c i' n' c' H1. cbn in H1. repeat destruct H1 as [H1|H1]; try discriminate; contradiction.
  - intros d ->. cbn. eauto.
  - apply HA. now left.
Qed.

(** ** C58: different requests never share a cache entry *)

(** The keys a request reads and writes are those of its resources. *)
Theorem C58_keys : forall (F H S N U : Type) (sv : services F H S N U) dry injected q key,
  uses key (program sv dry injected q) -> exists a, In a (resources q) /\ resource_key a = key.
Proof. intros. eapply uses_program; eauto. Qed.
Print Assumptions C58_keys.

Theorem C58_fact_refuted : exists id n c n' c',
  (n, c) <> (n', c') /\ resource_key (ResFact id n c) = resource_key (ResFact id n' c').
Proof. exists "F", "p", "A:c", "p:A", "c". split; [congruence|]. vm_compute. reflexivity. Qed.
Print Assumptions C58_fact_refuted.

(** The folder names.json shares its key with the entity names. *)
Theorem C58_folder_refuted :
  ResFolder "names.json" <> ResNames /\ resource_key (ResFolder "names.json") = resource_key ResNames.
Proof. split; [congruence|reflexivity]. Qed.
Print Assumptions C58_folder_refuted.

Theorem C58_separate_partial : forall qs,
  (forall q, In q qs -> usual q) -> no_collision qs ->
  forall q q' a b, In q qs -> In q' qs -> In a (resources q) -> In b (resources q') ->
  resource_key a = resource_key b -> a = b.
Proof. intros qs Hu Hn. exact (usual_separate qs Hu Hn). Qed.
Print Assumptions C58_separate_partial.

Example C58_example :
  let qs := [RCatalog "F"; RRender "F" "s"; RRender "F" "t"; RFact "F" "p:A" "c"; RSchema "http://x/y"; RNames; RUtr] in
  (forall q, In q qs -> usual q) /\ no_collision qs.
Proof.
  split.
  - intros q Hq. cbn in Hq. repeat destruct Hq as [<-|Hq]; try contradiction; cbn; repeat split; try discriminate; try (intuition discriminate).
    exists "http:", "x/y". reflexivity.
  - intros i n c i' n' c' H1 H2 f _. cbn in H1, H2.
    repeat destruct H1 as [H1|H1]; try discriminate; try contradiction;
    repeat destruct H2 as [H2|H2]; try discriminate; try contradiction. congruence.
Qed.

(** ** C59: no request can wedge the server *)

(** After the start (which caches the entity names), a request for the folder
    names.json, and any request that wants to write to the cache: no later
    request for a folder is ever answered. *)
Section Wedging.
  Context {F H S N U : Type} (sv : services F H S N U).
  Definition settled (ts : list (option request * goroutine H S N U)) : Prop :=
    Forall (fun t => snd t = WEnd \/ exists r, snd t = TRun (Answer r)) ts.
  Lemma settled_calm ts : settled ts -> calm ts.
  Proof. apply Forall_impl. intros [q g] [->|(r&->)]; (split; [reflexivity|discriminate]). Qed.
  Lemma settled_count f ts : (f WEnd = false) -> (forall r, f (TRun (Answer r)) = false) -> settled ts -> count f ts = 0.
  Proof.
    intros HW HA Ht. unfold count. induction Ht as [|[q g] ts [E|(r&E)] _ IH]; auto; cbn in *; subst; rewrite ?HW, ?HA; exact IH.
  Qed.
  Lemma settled_sequence c l c' : sequence sv false true c l c' -> forall m ts, free m -> settled ts ->
    exists m' ts', run sv false true (State c m ts) (State c' m' (ts ++ ts')) /\ free m' /\ settled (ts ++ ts') /\
      (forall q r, In (q, r) l -> answered (State c' m' (ts ++ ts')) q r) /\
      requests (State c' m' (ts ++ ts')) = (requests (State c m ts) ++ map fst l)%list.
  Proof.
    induction 1 as [c|c q r c1 l c2 Hs Hl IH]; intros m ts Hm Ht.
    - exists m, []. rewrite app_nil_r. repeat split; auto using run_refl; [contradiction|]. now rewrite app_nil_r.
    - destruct (serve sv false true c m ts q r c1 Hm (settled_calm _ Ht) Hs) as (m1 & ws & R1 & H1 & _ & H3).
      assert (H2 : settled (ts ++ (Some q, TRun (Answer r)) :: ws)).
      { apply Forall_app. split; auto. constructor; [right; now exists r|]. apply Forall_forall. intros t I. rewrite Forall_forall in H3. rewrite (H3 t I). now left. }
      destruct (IH m1 (ts ++ (Some q, TRun (Answer r)) :: ws)%list H1 H2) as (m' & ts' & R2 & H4 & H5 & H6 & H7).
      exists m', (((Some q, TRun (Answer r)) :: ws) ++ ts')%list. rewrite app_assoc. repeat split; auto.
      + eapply run_trans; eauto.
      + intros q0 r0 [[= <- <-]|Hin]; [|now apply H6]. unfold answered. cbn [threads].
        apply in_or_app. left. apply in_or_app. right. now left.
      + rewrite H7. unfold requests. cbn [threads map fst]. rewrite flat_map_app. cbn [flat_map fst].
        rewrite (requests_ws ws H3), <- app_assoc. reflexivity.
  Qed.

  Lemma wedging c1 m1 ts1 n id f h : free m1 -> settled ts1 ->
    mget String.eqb "names.json" c1 = Some (VNames n) -> mget String.eqb id c1 = None ->
    discover sv id (Ok f) -> hydrate sv f (Ok h) ->
    exists s, run sv false true (State c1 m1 ts1) s /\
      requests s = (requests (State c1 m1 ts1) ++ [RCatalog "names.json"; RCatalog id])%list /\
      deaf_after sv false true s.
  Proof.
    intros Hfree Hset Hn Hid Hdisc Hhyd. pose proof (settled_calm _ Hset) as Hcalm.
    set (q1 := RCatalog "names.json"). set (q2 := RCatalog id).
    (* the first request leaks the read lock *)
    set (m2 := set_lock m1 LApp (RW (Datatypes.S (readers (m1 LApp))) false)).
    assert (R2 : run sv false true (State c1 m1 ts1) (State c1 m2 (ts1 ++ [(Some q1, TRun (Answer Panic))]))).
    { eapply run_step; [eapply run_step; [eapply run_step; [apply run_refl|apply (step_request _ _ _ _ _ sv false true c1 m1 ts1 q1 (calm_up _ _ ts1 Hcalm))]|]|].
      - apply step_run; [now apply (calm_up_mid _ _ ts1 _ _ [] Hcalm); [constructor|discriminate]|].
        apply (gs_rlock _ _ _ _ c1 m1 ts1 (Some q1)). now rewrite Hfree.
      - apply step_run; [now apply (calm_up_mid _ _ ts1 _ _ [] Hcalm); [constructor|discriminate]|].
        match goal with |- gstep (State _ _ (_ ++ (_, TRead _ _ _ _ ?miss) :: _)) _ =>
          pose proof (gs_get _ _ _ _ c1 m2 ts1 (Some q1) LApp true "names.json" (as_hyd (fun h => Lookup LApp true "names.json/" as_bytes
                (and_save false "names.json/" (on_hyd h (catalog sv)) False))) miss []) as G end.
        unfold after_get in G. rewrite Hn in G. exact G. }
    (* the second one reads, computes, and its writer announces itself *)
    set (ts2 := (ts1 ++ [(Some q1, TRun (Answer Panic))])%list) in *.
    assert (Hset2 : settled ts2) by (apply Forall_app; split; auto; constructor; auto; right; now exists Panic).
    pose proof (settled_calm _ Hset2) as Hcalm2.
    set (key2 := Lookup LApp true (id ++ "/") as_bytes (and_save false (id ++ "/") (on_hyd (Some h) (catalog sv)) False) : prog H S N U).
    assert (R3 : exists m3, run sv false true (State c1 m2 ts2)
                   (State c1 m3 (ts2 ++ [(Some q2, TRun key2); (None, WWait LApp id (VHyd (Some h)))])) /\
                 announced (m3 LApp) = true /\ readers (m3 LApp) = 1).
    { eexists. split.
      - eapply run_step; [eapply run_step; [eapply run_step; [eapply run_step; [eapply run_step; [eapply run_step;
          [eapply run_step; [eapply run_step; [apply run_refl|]|]|]|]|]|]|]|].
        + apply (step_request _ _ _ _ _ sv false true c1 m2 ts2 q2). now apply calm_up.
        + apply step_run; [apply (calm_up_mid _ _ ts2 _ _ _ Hcalm2); [repeat constructor; cbn; discriminate|discriminate]|]. apply (gs_rlock _ _ _ _ c1 m2 ts2 (Some q2)). reflexivity.
        + apply step_run; [apply (calm_up_mid _ _ ts2 _ _ _ Hcalm2); [repeat constructor; cbn; discriminate|discriminate]|].
          apply (gs_get _ _ _ _ c1 _ ts2 (Some q2) LApp true id (as_hyd _) _ []).
        + unfold after_get. cbn [negb]. rewrite Hid.
          apply step_run; [apply (calm_up_mid _ _ ts2 _ _ _ Hcalm2); [repeat constructor; cbn; discriminate|discriminate]|]. apply (gs_runlock _ _ _ _ c1 _ ts2 (Some q2) LApp _ []).
        + apply step_run; [apply (calm_up_mid _ _ ts2 _ _ _ Hcalm2); [repeat constructor; cbn; discriminate|discriminate]|]. eapply (gs_compute _ _ _ _ c1 _ ts2 (Some q2) _ _ _ _ []). exact Hdisc.
        + apply step_run; [apply (calm_up_mid _ _ ts2 _ _ _ Hcalm2); [repeat constructor; cbn; discriminate|discriminate]|]. eapply (gs_compute _ _ _ _ c1 _ ts2 (Some q2) _ _ _ (Some (Ok h)) []). exact Hhyd.
        + apply step_run; [apply (calm_up_mid _ _ ts2 _ _ _ Hcalm2); [repeat constructor; cbn; discriminate|discriminate]|]. apply (gs_spawn _ _ _ _ c1 _ ts2 (Some q2) LApp id (VHyd (Some h)) key2 []).
        + apply step_run; [apply (calm_up_mid _ _ ts2 _ _ _ Hcalm2); [repeat constructor; cbn; discriminate|discriminate]|]. cbn [app].
          pose proof (gs_lock H S N U c1) as HL.
          match goal with |- gstep (State _ ?m _) _ =>
            specialize (HL m (ts2 ++ [(Some q2, TRun key2)])%list None LApp id (VHyd (Some h)) []) end.
          rewrite <- app_assoc in HL. cbn [app] in HL. rewrite <- app_assoc in HL. apply HL. reflexivity.
      - split; [reflexivity|]. unfold set_lock. cbn. unfold m2, set_lock. cbn. now rewrite Hfree. }
    destruct R3 as (m3 & R3 & HA & HR).
    set (s := State c1 m3 _) in R3.
    exists s. split; [|split].
    - eapply run_trans; [exact R2|exact R3].
    - unfold s, requests, ts2. cbn [threads]. rewrite !flat_map_app. cbn [flat_map fst app]. now rewrite <- app_assoc.
    - intros s' Hr i q g Hi Hnth Hq r ->.
      assert (Hw : wedged LApp s).
      { unfold wedged, s. cbn [locks threads]. split; [exact HA|]. rewrite HR.
        rewrite !count_app, !count_cons, (settled_count (inside LApp)), (settled_count (reading LApp)) by (exact Hset2 || reflexivity || (intros ?; reflexivity)).
        cbn. auto. }
      destruct (run_late sv false true LApp _ s s' (program_outside sv false true) Hr Hw eq_refl) as [_ HL].
      exact (HL i q _ Hi Hnth Hq).
  Qed.
End Wedging.

Theorem C59_refuted : exists (F H S N U : Type) (sv : services F H S N U) s,
  always_returns sv /\
  run sv false true (initial []) s /\
  requests s = [RNames; RCatalog "names.json"; RCatalog "F"] /\
  deaf_after sv false true s.
Proof.
  destruct (settled_sequence demo [] [(RNames, Ok (VNames tt))] [("names.json", VNames tt)]) with (m := fun _ : lockid => RW 0 false) (ts := @nil (option request * goroutine string unit unit unit))
    as (m1 & ts1 & R1 & Hfree & Hset & _ & Hreq).
  { play. } { now intros l. } { constructor. }
  destruct (wedging demo [("names.json", VNames tt)] m1 ts1 tt "F" "a.htm" "a.htm" Hfree Hset) as (s & R2 & E & D); try reflexivity.
  exists string, string, unit, unit, unit, demo, s. split; [exact demo_returns|]. split; [|split].
  - eapply run_trans; [exact R1|exact R2].
  - rewrite E. cbn [app] in Hreq. rewrite Hreq. reflexivity.
  - exact D.
Qed.
Print Assumptions C59_refuted.

(** With separate keys every request whose own calls return is answered, on
    every schedule and even if calls made for other requests hang, unless the
    process has ended: the steps cannot go on forever without new requests, and
    when they stop, these requests have their answers and no lock is held.
    [C131] says when the process may end. *)
Lemma always_for {F H S N U} (sv : services F H S N U) q : always_returns sv -> returns_for sv q.
Proof. intros (?&?&?&?&?&?&?&?). destruct q; cbn; auto. Qed.
Theorem C59_answered_partial : forall (F H S N U : Type) (sv : services F H S N U) dry injected s,
  run sv dry injected (initial []) s -> separate (requests s) ->
  Acc (fun s2 s1 => gstep s1 s2) s /\
  forall s', continues s s' -> at_rest s' ->
    ended s' \/
    (forall q, In q (requests s) -> returns_for sv q -> exists r, answered s' q r) /\
    (forall l, locks s' l = RW 0 false).
Proof.
  intros F H S N U sv dry injected s Hr Hs.
  split.
  - destruct (run_sized sv dry injected _ _ Hr) as [N0 HN].
    + exists 0. exists []. split; [constructor|reflexivity].
    + eapply gstep_Acc; eauto.
  - intros s' Hc Hrest.
    assert (Hr' : run sv dry injected (initial []) s' /\ requests s' = requests s).
    { clear Hrest. induction Hc as [s|s s1 s2 Hc IH Hu Hg]; auto. destruct IH as [IH1 IH2]; auto.
      split; [eapply run_step; [exact IH1|now apply step_run]|]. now rewrite (gstep_requests _ _ Hg). }
    destruct Hr' as [Hr' E]. destruct (up_dec s') as [Hup|]; [right|now left].
    assert (Hi : inv sv dry injected (legal sv (requests s)) s').
    { eapply run_inv; eauto.
      - intros q Hq. apply wok_program; auto. now rewrite <- E.
      - split; [contradiction|constructor]. }
    assert (Hl : linv sv (legal sv (requests s)) s').
    { apply (run_linv sv dry injected _ (initial [])); auto.
      - intros q Hq. rewrite E in Hq. split; [apply wok_program|apply safe_program]; auto.
      - split; [contradiction|constructor].
      - split; [constructor|]. intros l. cbn. repeat split; auto. }
    assert (Hfin : forall t, In t (threads s') -> finished (snd t) \/ (computing (snd t) /\ ~ lives sv t)).
    { intros t Ht. destruct (finished_dec (snd t)) as [|Hn]; auto. right.
      assert (Hv : ~ (lives sv t \/ ~ computing (snd t))).
      { intros Hv. destruct (progress _ _ _ _ _ Hi Hl) as [s'' Hg]; [eauto|]. destruct (Hrest _ Hup Hg). }
      split; [|tauto]. destruct (snd t) as [[r|l get key hit miss|X P k|l key v k|]| | | | | | | |] eqn:Eg;
        solve [do 3 eexists; reflexivity|exfalso; apply Hv; right; intros (X0 & P0 & k0 & E0); discriminate E0]. }
    split.
    + intros q Hq Hret. rewrite <- E in Hq. unfold requests in Hq. apply in_flat_map in Hq as ([[q'|] g] & Ht & Hq); [|contradiction].
      destruct Hq as [->|[]]. destruct (Hfin _ Ht) as [Hg|[_ Hn]]; [|now elim Hn]. cbn in Hg.
      destruct Hl as [Hf _]. rewrite Forall_forall in Hf. destruct (Hf _ Ht) as [_ Hk].
      destruct Hg as [[r ->]|[-> | ->]]; [exists r; exact Ht|discriminate Hk|].
      unfold up in Hup. rewrite Forall_forall in Hup. now elim (Hup _ Ht).
    + assert (Hz : forall f, (forall p, f (TRun p) = false) -> f WEnd = false -> count f (threads s') = 0).
      { intros f H1 H2. unfold count. clear -Hfin H1 H2. induction (threads s') as [|t ts IH]; auto. cbn.
        destruct (Hfin t (or_introl eq_refl)) as [[[r Hg]|[Hg|Hg]]|[(X & P & k & Hg) _]]; rewrite Hg, ?H1, ?H2; apply IH; intros t' Ht'; apply Hfin; now right. }
      intros l. destruct Hl as [_ Hk]. destruct (Hk l) as (H1 & H2 & _). rewrite Hz in H1, H2 by reflexivity.
      destruct (locks s' l) as [n b]. cbn in *. subst n. destruct b; [discriminate|reflexivity].
Qed.
Print Assumptions C59_answered_partial.
(** [C56_example] and [demo_returns] meet the hypotheses. *)

(** ** C131: the process ends only because of a report that makes it end *)

(** In every history with separate keys: if the process has ended, one of the requests made
    is for something that code panics on in a goroutine of its own. Nothing is served after it. *)
Theorem C131_cause_partial : forall (F H S N U : Type) (sv : services F H S N U) dry injected s,
  run sv dry injected (initial []) s -> separate (requests s) -> ended s ->
  (exists q, In q (requests s) /\ deadly sv q) /\ forall s', run sv dry injected s s' -> s' = s.
Proof.
  intros F H S N U sv dry injected s Hr Hs He. split; [|intros s' R; now apply (ended_stays sv dry injected)].
  assert (Hi : inv sv dry injected (legal sv (requests s)) s).
  { eapply run_inv; eauto; [intros q Hq; now apply wok_program|]. split; [contradiction|constructor]. }
  destruct (inv_ended _ _ _ _ _ Hi He) as (q & Hq & Hd). exists q. split; auto. eapply mayd_program; eauto.
Qed.
Print Assumptions C131_cause_partial.
(** Every such request can end it. *)
Theorem C131_ends_partial : forall (F H S N U : Type) (sv : services F H S N U) dry injected q, deadly sv q ->
  exists s, run sv dry injected (initial []) s /\ requests s = [q] /\ ended s.
Proof. intros. now apply ends_alone. Qed.
Print Assumptions C131_ends_partial.

(** ** C60: dry mode neither reads nor writes the cache *)

(** Whatever is in the cache to begin with, on every schedule. *)
Theorem C60_computed_afresh : forall (F H S N U : Type) (sv : services F H S N U) injected c s q r,
  run sv true injected (initial c) s -> answered s q r -> of_folder q ->
  uncached sv injected q r.
Proof.
  intros F H S N U sv injected c s q r Hr Ha Hq.
  apply (may_dry sv true injected (fun _ _ => True)); auto.
  eapply inv_answered; eauto. eapply run_inv; eauto.
  - intros q0 _. assert (HW : forall p, wok (fun (_ : string) (_ : value H S N U) => True) p).
    { fix IH 1. intros [r0|l get key hit miss|X P k|l key v k|]; cbn; auto.
      split; auto. intros _ v _. destruct (hit v); auto. }
    apply HW.
  - split; auto. constructor.
Qed.
Print Assumptions C60_computed_afresh.

Theorem C60_cache_untouched : forall (F H S N U : Type) (sv : services F H S N U) injected c s,
  run sv true injected (initial c) s ->
  (forall q, In q (requests s) -> of_folder q \/ injected = false) ->
  stored s = c.
Proof.
  intros F H S N U sv injected c s Hr Hq.
  destruct (run_quiet sv true injected (initial c) s) as [_ E]; auto.
  - intros q Hin. apply quiet_program; auto.
  - constructor.
Qed.
Print Assumptions C60_cache_untouched.

Example C60_example : exists s,
  run demo true false (initial []) s /\ requests s = [RCatalog "F"; RCatalog "F"] /\
  answered s (RCatalog "F") (Ok (VBytes (Some "{catalog}"))) /\ stored s = [].
Proof.
  destruct (history_of demo true false
              [(RCatalog "F", Ok (VBytes (Some "{catalog}"))); (RCatalog "F", Ok (VBytes (Some "{catalog}")))] [])
    as (s & R & Ec & E & HA).
  { play. }
  exists s. repeat split; auto. apply HA. now left.
Qed.

(** ** C63: the inline document is served verbatim under its own name *)
Theorem C63_document_partial : forall (F H S N U : Type) (sv : services F H S N U) dry injected s id slug d r,
  run sv dry injected (initial []) s -> separate (requests s) ->
  answered s (RRender id slug) r ->
  (exists base, slug = base ++ ".xhtml" \/ slug = base ++ ".htm") ->
  (forall x, hydrated sv id x -> exists h, x = Ok h /\
     entry_name sv (folder_of sv h) = slug /\ doc_bytes sv (folder_of sv h) = Some d) ->
  r = Ok (VBytes (Some d)).
Proof.
  intros F H S N U sv dry injected s id slug d r Hr Hs Ha Hext Hh.
  assert (HU : uncached sv injected (RRender id slug) r).
  { eapply C56_transparent_partial; eauto. intros r' [(m & Hm & ->)|[[Hm ->]|(h & a & Hm & Ha' & ->)]];
      apply Hh in Hm as (h' & E & E1 & E2); try discriminate. injection E as <-.
    destruct Ha' as [[_ Ha']|[Hn _]].
    - rewrite E2 in Ha'. subst a. cbn. eauto.
    - destruct Hn. split; auto. }
  destruct HU as [(m & Hm & ->)|[[Hm ->]|(h & a & Hm & Ha' & ->)]];
    apply Hh in Hm as (h' & E & E1 & E2); try discriminate. injection E as <-.
  destruct Ha' as [[_ Ha']|[Hn _]].
  - rewrite E2 in Ha'. now subst a.
  - destruct Hn. split; auto.
Qed.
Print Assumptions C63_document_partial.

(** Under any other name: the renderable of that slug. *)
Theorem C63_other_slugs_partial : forall (F H S N U : Type) (sv : services F H S N U) dry injected s id slug r,
  run sv dry injected (initial []) s -> separate (requests s) ->
  answered s (RRender id slug) r ->
  (forall h, hydrated sv id (Ok h) -> entry_name sv (folder_of sv h) <> slug) ->
  forall b, r = Ok (VBytes (Some b)) -> exists h, hydrated sv id (Ok h) /\ renderable sv slug h (Ok (Some b)).
Proof.
  intros F H S N U sv dry injected s id slug r Hr Hs Ha Hne b ->.
  destruct (explained_of sv dry injected s _ _ Hr Hs Ha) as [HU|HM].
  - destruct HU as [(m & Hm & [=])|[[Hm [=]]|(h & a & Hm & Ha' & E)]].
    destruct a as [b'|m|]; cbn in E; try discriminate. injection E as <-.
    destruct Ha' as [[[Hn _] _]|[_ Ha']]; [now apply Hne in Hn|eauto].
  - destruct HM as [([=] & _)|([=] & _)].
Qed.
Print Assumptions C63_other_slugs_partial.

(** Without that condition: the path "F/x/a.htm" is the slug "x/a.htm" of folder "F" and the
    document of folder "F/x", and both are kept under it. *)
Definition nested : services string string unit unit unit :=
  Services (fun id r => r = Ok id) (fun f r => r = Ok f) (fun _ => False)
    (fun h => h) (fun _ => "a.htm") (fun _ => Some "<html/>")
    (fun _ r => r = Ok (Some "{catalog}")) (fun _ _ r => r = Ok (Some "{grid}")) (fun _ _ => False)
    (fun _ _ _ r => r = Ok None) (fun _ r => r = Ok tt) (fun r => r = Ok tt) (fun r => r = Ok tt).
Theorem C63_refuted : exists (F H S N U : Type) (sv : services F H S N U) s id slug d,
  run sv false true (initial []) s /\
  (exists base, slug = base ++ ".htm") /\
  (forall x, hydrated sv id x -> exists h, x = Ok h /\
     entry_name sv (folder_of sv h) = slug /\ doc_bytes sv (folder_of sv h) = Some d) /\
  exists b, b <> d /\ answered s (RRender id slug) (Ok (VBytes (Some b))).
Proof.
  destruct (history_of nested false true
              [(RRender "F" "x/a.htm", Ok (VBytes (Some "{grid}"))); (RRender "F/x" "a.htm", Ok (VBytes (Some "{grid}")))]
              [("F", VHyd (Some "F")); ("F/x/a.htm", VBytes (Some "{grid}"))])
    as (s & R & _ & _ & HA).
  { play. }
  exists string, string, unit, unit, unit, nested, s, "F/x", "a.htm", "<html/>".
  split; [exact R|]. split; [now exists "a"|]. split.
  - intros x Hx. inversion Hx as [m' Hd E0|Hd E0|f r' Hd Hy E0]; cbn in *; try discriminate.
    injection Hd as ->. cbn in Hy. subst. eauto.
  - exists "{grid}". split; [discriminate|]. apply HA. right. now left.
Qed.
Print Assumptions C63_refuted.

Example C63_example : exists s,
  run demo false true (initial []) s /\ requests s = [RRender "F" "a.htm"; RRender "F" "a.htm"] /\
  separate (requests s) /\
  answered s (RRender "F" "a.htm") (Ok (VBytes (Some "<html/>"))) /\
  (forall x, hydrated demo "F" x -> exists h, x = Ok h /\
     entry_name demo (folder_of demo h) = "a.htm" /\ doc_bytes demo (folder_of demo h) = Some "<html/>").
Proof.
  destruct (history_of demo false true
              [(RRender "F" "a.htm", Ok (VBytes (Some "<html/>"))); (RRender "F" "a.htm", Ok (VBytes (Some "<html/>")))]
              [("F", VHyd (Some "a.htm")); ("F/a.htm", VBytes (Some "<html/>"))])
    as (s & R & _ & E & HA).
  { play. }
  exists s. split; [exact R|]. split; [exact E|]. cbn [map fst] in E. rewrite E. repeat split.
  - apply usual_separate.
    + intros q Hq. cbn in Hq. repeat destruct Hq as [<-|Hq]; try contradiction; cbn; repeat split; try discriminate; intuition discriminate.
    + intros i n c i' n' c' H1. cbn in H1. repeat destruct H1 as [H1|H1]; try discriminate; contradiction.
  - apply HA. now left.
  - intros x Hx. inversion Hx as [m' Hd E0|Hd E0|f r' Hd Hy E0]; cbn in *; try discriminate.
    injection Hd as ->. cbn in Hy. subst. eauto.
Qed.

(** ** C94: the cache of global files is transparent, errors included *)
Theorem C94_refuted : exists (F H S N U : Type) (sv : services F H S N U) s q m,
  run sv false true (initial []) s /\ requests s = [RUtr; q] /\
  (forall r, uncached sv true q r -> r = Err m) /\ answered s q Panic.
Proof.
  set (q := RSchema "http://www.xbrl.org/utr/utr.xml").
  destruct (serve demo false true [] (fun _ => RW 0 false) [] RUtr (Ok (VUtr tt)) [(UTR, VUtr tt)])
    as (m1 & ws & R1 & Hfree & Hcalm & Hws).
  { now intros l. } { constructor. } { cbn [program]. solo. }
  cbn [app] in *. set (ts1 := (Some RUtr, TRun (Answer (Ok (VUtr tt)))) :: ws) in *.
  set (s := State [(UTR, VUtr tt)] (set_lock m1 LGlobal (RW (S (readers (m1 LGlobal))) false)) (ts1 ++ [(Some q, TRun (Answer Panic))])).
  exists string, string, unit, unit, unit, demo, s, q, "EOF". repeat split.
  - eapply run_trans; [exact R1|].
    eapply run_step; [eapply run_step; [eapply run_step; [apply run_refl|apply (step_request _ _ _ _ _ demo false true _ m1 ts1 q (calm_up _ _ ts1 Hcalm))]|]|].
    + apply step_run; [now apply (calm_up_mid _ _ ts1 _ _ [] Hcalm); [constructor|discriminate]|].
      apply (gs_rlock _ _ _ _ _ m1 ts1 (Some q)). now rewrite Hfree.
    + apply step_run; [now apply (calm_up_mid _ _ ts1 _ _ [] Hcalm); [constructor|discriminate]|]. apply (gs_get _ _ _ _ [(UTR, VUtr tt)] _ ts1 (Some q) LGlobal true UTR
                       (fun v => match v with VSchema s => Some (Answer (Ok (VSchema s))) | _ => None end) _ []).
  - unfold s, requests, ts1. cbn [threads]. rewrite flat_map_app. cbn [flat_map fst app].
    rewrite (requests_ws ws Hws). reflexivity.
  - intros r (a & -> & ->). reflexivity.
  - unfold answered, s. cbn [threads]. apply in_or_app. right. now left.
Qed.
Print Assumptions C94_refuted.

Theorem C94_transparent_partial : forall (F H S N U : Type) (sv : services F H S N U) dry injected s q r,
  run sv dry injected (initial []) s -> separate (requests s) ->
  answered s q r -> ~ of_folder q ->
  uncached sv injected q r.
Proof.
  intros F H S N U sv dry injected s q r Hr Hs Ha Hq.
  destruct (explained_of sv dry injected s q r Hr Hs Ha) as [HU|HM]; auto.
  destruct q; cbn in Hq; tauto.
Qed.
Print Assumptions C94_transparent_partial.

Example C94_example : exists s,
  run demo false true (initial []) s /\
  requests s = [RSchema "http://x//y"; RSchema "http://z"; RSchema "http://z"; RSchema "http://x//y"] /\
  separate (requests s) /\
  answered s (RSchema "http://z") (Err "EOF") /\ answered s (RSchema "http://x//y") (Ok (VSchema tt)).
Proof.
  destruct (history_of demo false true
              [(RSchema "http://x//y", Ok (VSchema tt)); (RSchema "http://z", Err "EOF");
               (RSchema "http://z", Err "EOF"); (RSchema "http://x//y", Ok (VSchema tt))]
              [("http://x//y", VSchema tt)])
    as (s & R & _ & E & HA).
  { play. }
  exists s. split; [exact R|]. split; [exact E|]. cbn [map fst] in E. rewrite E. repeat split.
  - apply usual_separate.
    + intros q Hq. cbn in Hq. repeat destruct Hq as [<-|Hq]; try contradiction; cbn; split; try discriminate;
        [exists "http:", "x//y"|exists "http:", "z"|exists "http:", "z"|exists "http:", "x//y"]; reflexivity.
    + intros i n c i' n' c' H1. cbn in H1. repeat destruct H1 as [H1|H1]; try discriminate; contradiction.
  - apply HA. right. now left.
  - apply HA. now left.
Qed.
