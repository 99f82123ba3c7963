(** * LangProps: C156, the label roles and languages among which a reader can choose *)
From Verif Require Import GoBase GoSpec GoFacts AttrModel SchemaModel LinkbaseModel InstanceModel InstanceSpec LabelModel LabelSpec LabelProofs
  LabelProps FactModel GridModel GridSpec GridProofs GridProps CalcModel CalcSpec CalcProofs CalcProps DefModel DefSpec DefProofs DefProps
  RenderProps LangSpec LangProofs.
Local Open Scope string_scope.

(** ** Presentation grids *)
(** The label roles are exactly those of the rows, dimensions and explicit members. The languages
    are among theirs, and are all of theirs if any two of these concepts with a label role have it
    in the same languages. Missing: the labels of typed domains, and any other labels. *)
Theorem C156_presentation_partial :
  forall tree labels concept_of g entity role lbs p roles langs,
    (forall x, Permutation (fst (ge_destruct g x)) (fst x) /\ Permutation (snd (ge_destruct g x)) (snd x)) ->
    p_grid_of tree (get_label labels) concept_of g entity role lbs = Ok (p, roles, langs) ->
    let shown := row_or_column concept_of (ge_instances g) entity (map ilHref (pgLabels p)) in
    (forall r, In r roles <-> exists h, shown h /\ has_role r (get_label labels h)) /\
    (forall lang, In lang langs -> exists h, shown h /\ speaks (get_label labels h) lang) /\
    (same_languages (get_label labels) shown ->
     forall h lang, shown h -> speaks (get_label labels h) lang -> In lang langs).
Proof. intros. eapply p_grid_offers; eauto. apply get_label_is_pack. Qed.
Print Assumptions C156_presentation_partial.

(** ** Calculation grids *)
Theorem C156_calculation_partial :
  forall tree labels concept_of genv entity order role lbs insts items roles langs,
    (forall m, Permutation (order m) m) ->
    (forall from i, In i (ge_instances (genv from)) <-> In i insts) ->
    (forall from x, Permutation (fst (ge_destruct (genv from) x)) (fst x) /\
                    Permutation (snd (ge_destruct (genv from) x)) (snd x)) ->
    get_summation_items tree (get_label labels) concept_of genv entity order role lbs = Ok (items, roles, langs) ->
    let used h := exists lb k, shown_link role lbs lb k /\ sums concept_of insts entity role lb k h in
    (forall r, In r roles <-> exists h, used h /\ has_role r (get_label labels h)) /\
    (forall lang, In lang langs -> exists h, used h /\ speaks (get_label labels h) lang) /\
    (same_languages (get_label labels) used ->
     forall h lang, used h -> speaks (get_label labels h) lang -> In lang langs).
Proof.
  intros tree labels concept_of genv entity order role lbs insts items roles langs HO HI GD E used.
  eapply c_grid_offers; eauto; [intro; reflexivity|apply get_label_is_pack].
Qed.
Print Assumptions C156_calculation_partial.

(** ** Definition grids *)
Theorem C156_definition_partial :
  forall tree labels concept_of genv dims_order entity role lbs insts rds roles langs,
    (forall n i, In i (ge_instances (genv n)) <-> In i insts) ->
    (forall n x, Permutation (fst (ge_destruct (genv n) x)) (fst x) /\ Permutation (snd (ge_destruct (genv n) x)) (snd x)) ->
    (forall lb k x, In x (dims_order lb k) <-> In x lbs) ->
    get_root_domains tree (get_label labels) concept_of genv dims_order entity role lbs = Ok (rds, roles, langs) ->
    let shown h := exists rd, In rd rds /\ in_root_domain concept_of insts entity rd h in
    let used h := shown h \/ network_dimension role lbs h in
    (forall r, In r roles -> exists h, used h /\ has_role r (get_label labels h)) /\
    (forall lang, In lang langs -> exists h, used h /\ speaks (get_label labels h) lang) /\
    (forall h r, shown h -> has_role r (get_label labels h) -> In r roles) /\
    (same_languages (get_label labels) used ->
     forall h lang, shown h -> speaks (get_label labels h) lang -> In lang langs).
Proof.
  intros tree labels concept_of genv dims_order entity role lbs insts rds roles langs HI GD HD E shown used.
  destruct (root_domains_offer tree (get_label labels) (get_label_is_pack labels) concept_of genv dims_order entity role insts HI GD used
              lbs rds roles langs) as (A & B & C & D); auto.
  - intros lb k h Hlb Hk Hh. right. exists (net_links role lbs), lb, k. apply dimension_hrefs_In in Hh. destruct Hh as (lb' & H1 & H2).
    exists lb'. split; [apply net_links_network|]. split; [|split; [now apply (HD lb k)|exact H2]].
    apply in_flat_map. exists lb. split; auto. now apply in_map.
  - intros rd h Hrd Hh. left. exists rd. auto.
  - split; [exact A|]. split; [exact B|]. split.
    + intros h r (rd & Hrd & Hh). eauto.
    + intros S h lang (rd & Hrd & Hh). eapply D; eauto.
Qed.
Print Assumptions C156_definition_partial.

(** ** Refutations *)
(** t#Total has an English label and heads the first row; English is not offered *)
Theorem C156_rows_refuted :
  ~ (forall tree labels concept_of g entity role lbs p roles langs,
       (forall x, ge_destruct g x = x) ->
       p_grid_of tree (get_label labels) concept_of g entity role lbs = Ok (p, roles, langs) ->
       forall i lang, In i (pgLabels p) -> speaks (ilLabel i) lang -> In lang langs).
Proof.
  intro H. destruct render_example as (p & d & c & E & _).
  assert (X : exists i, In i (pgLabels p) /\ speaks (ilLabel i) "en - english").
  { unfold render_p in E. vm_compute in E. injection E as <-. eexists. split; [left; reflexivity|].
    exists "Default", "Total". eexists. split; [left; reflexivity|]. cbn. auto. }
  destruct X as (i & Hi & S). unfold render_p in E.
  assert (GE : forall x, ge_destruct (calc_genv "") x = x) by reflexivity.
  specialize (H _ _ _ _ _ _ _ _ _ _ GE E i _ Hi S). cbn in H. destruct H as [H|[H|[]]]; discriminate H.
Qed.
Print Assumptions C156_rows_refuted.
(** t#Europe is a member with a terse label in English; English is not offered *)
Theorem C156_members_refuted :
  ~ (forall tree labels concept_of genv dims_order entity role lbs rds roles langs,
       (forall n x, ge_destruct (genv n) x = x) ->
       get_root_domains tree (get_label labels) concept_of genv dims_order entity role lbs = Ok (rds, roles, langs) ->
       forall rd row domain e lang, In rd rds -> In row (rdDomains rd) -> In domain row -> In e domain ->
         speaks (emLabel e) lang -> In lang langs).
Proof.
  intro H.
  assert (E : exists rd roles langs, sample_roots [def_lb "all"] (get_label europe_labels) = Ok ([rd], roles, langs) /\
     ~ In "en - english" langs /\ exists row domain e, In row (rdDomains rd) /\ In domain row /\ In e domain /\ speaks (emLabel e) "en - english").
  { vm_compute. do 3 eexists. split; [reflexivity|]. split; [intuition discriminate|].
    vm_compute. do 3 eexists. split; [left; reflexivity|]. split; [left; reflexivity|]. split; [right; left; reflexivity|].
    exists "Terse", "EU". eexists. split; [right; left; reflexivity|]. now left. }
  destruct E as (rd & roles & langs & E & N & row & domain & e & H1 & H2 & H3 & H4).
  apply N. eapply H; [|exact E|left; reflexivity|exact H1|exact H2|exact H3|exact H4]. reflexivity.
Qed.
Print Assumptions C156_members_refuted.
(** t#region is the domain of the typed members of t#Region and has a terse label *)
Definition region_labels : list label_linkbase :=
  [LabelLinkbase "l.xml" []
     [LabelLink "http://www.xbrl.org/2003/role/link" [Loc "t#region" "a"]
        [LabelElem "z" "http://www.xbrl.org/2003/role/terseLabel" "es" "Zona"]
        [LArc (num 1) "http://www.xbrl.org/2003/arcrole/concept-label" "a" "z"]]].
Definition region_instance : instance :=
  Instance "i.xml" [mixed_context] [] [] [Fact "t#Total" "f1" "c1" "" Precisionless false "12"].
Definition region_env : grid_env :=
  GridEnv [region_instance] in_document_order first_entry
    (fun _ _ => CellEnv [region_instance] [region_instance] [region_instance] calc_renv) (fun _ _ l => l) (fun l => l) (fun x => x).
Theorem C156_typed_domains_refuted :
  ~ (forall tree labels concept_of g entity role lbs p roles langs,
       (forall x, ge_destruct g x = x) ->
       p_grid_of tree (get_label labels) concept_of g entity role lbs = Ok (p, roles, langs) ->
       forall v t r, In v (pgVoid p) -> vcTypedDomain v = Some t -> has_role r (lbLabel t) -> In r roles).
Proof.
  intro H.
  assert (E : exists p roles langs, p_grid_of sample_tree (get_label region_labels) calc_concept region_env "http://cik/0001" calc_role [render_pre]
                = Ok (p, roles, langs) /\ ~ In "Terse" roles /\
              exists v t, In v (pgVoid p) /\ vcTypedDomain v = Some t /\ has_role "Terse" (lbLabel t)).
  { vm_compute. do 3 eexists. split; [reflexivity|]. split; [intuition discriminate|].
    do 2 eexists. split; [right; right; left; reflexivity|]. split; [reflexivity|]. cbn. auto. }
  destruct E as (p & roles & langs & E & N & v & t & Hv & Ht & Hr). apply N.
  eapply H; [|exact E|exact Hv|exact Ht|exact Hr]. reflexivity.
Qed.
Print Assumptions C156_typed_domains_refuted.

(** ** A case: t#A, t#B and the dimension t#Region have English labels, the last in a role of its own *)
Definition lang_labels : list label_linkbase :=
  let arc_ f t := LArc (num 1) "http://www.xbrl.org/2003/arcrole/concept-label" f t in
  [LabelLinkbase "l.xml" []
     [LabelLink "http://www.xbrl.org/2003/role/link" [Loc "t#Region" "a"; Loc "t#A" "b"; Loc "t#B" "c"]
        [LabelElem "x" "http://www.xbrl.org/2003/role/verboseLabel" "es" "La zona";
         LabelElem "y" "http://www.xbrl.org/2003/role/terseLabel" "en-US" "A";
         LabelElem "z" "http://www.xbrl.org/2003/role/terseLabel" "en-US" "B"]
        [arc_ "a" "x"; arc_ "b" "y"; arc_ "c" "z"]]].
Example C156_example :
  exists rd roles langs,
    sample_roots [def_lb "all"] (get_label lang_labels) = Ok ([rd], roles, langs) /\
    (forall n i, In i (ge_instances (def_genv n)) <-> In i [def_instance]) /\
    (forall lb k x, In x ((fun (_ : linkbase darc) (_ : link darc) => [def_lb "all"]) lb k) <-> In x [def_lb "all"]) /\
    same_languages (get_label lang_labels)
      (fun h => (exists rd', In rd' [rd] /\ in_root_domain def_concept [def_instance] "http://cik/0001" rd' h) \/
                network_dimension def_role [def_lb "all"] h) /\
    In "en - english" langs /\ In "es - español" langs /\ In "Verbose" roles.
Proof.
  eexists. eexists. eexists. split; [vm_compute; reflexivity|].
  split; [reflexivity|]. split; [reflexivity|]. split; [|cbn; intuition].
  set (all := ["t#A"; "t#B"; "t#Region"; "t#Product"; "t#World"; "t#Things"]).
  match goal with |- same_languages _ ?U => assert (K : forall h, U h -> In h all) end.
  { intros h [(rd & [<-|[]] & [[H|(i & c & [<-|[]] & (f & _ & _ & _ & (l1 & l2 & EC & _) & _) & (d & Hd & M))]|[(d & Hd & <-)|(row & dom & e & H1 & H2 & H3 & H4 & <-)]])|
             (links & lb & k & lb' & (kss & F & ->) & Hin & [<-|[]] & (a & Ha & Er & L))].
    - cbn in H. unfold all. cbn. intuition.
    - exfalso. assert (Hc : In c (iContexts def_instance)) by (rewrite EC; apply in_or_app; right; now left).
      destruct Hc as [<-|[]]. assert (d = no_dims) as -> by (destruct Hd; assumption).
      destruct M as [(e & [] & _)|(t & [] & _)].
    - cbn in Hd. destruct Hd as [<-|[<-|[]]]; cbn; auto 8.
    - cbn in H1. repeat (destruct H1 as [<-|H1]; [cbn in H2; repeat (destruct H2 as [<-|H2]; [cbn in H3; repeat (destruct H3 as [<-|H3]; [cbn in H4 |- *; try discriminate H4; auto 8|]); destruct H3|]); destruct H2|]). destruct H1.
    - inversion F as [|? ks ? ? LI F2]; subst. inversion F2; subst. cbn in Hin. rewrite app_nil_r in Hin.
      apply in_map_iff in Hin. destruct Hin as (k' & [= <- ->] & Hk).
      assert (k = def_link "all") as ->.
      { destruct LI as [[_ T]|[_ ->]]; [|destruct Hk].
        assert (I : In k (lbLinks (def_lb "all"))).
        { clear - T Hk. induction T; cbn in *; intuition. }
        destruct I as [<-|[]]. reflexivity. }
      assert (h = map_locator_to_href def_role (def_lb "all") (daTo a)) as -> by (eapply locates_unique; [exact L|apply locates_fun]).
      cbn in Ha. repeat (destruct Ha as [<-|Ha]; [try discriminate Er; vm_compute; auto 8|]). destruct Ha. }
  intros h h' role lang text Hh Hh' (m & Hm & Ht) R. apply K in Hh, Hh'. clear K.
  assert (C : (role = "Default" /\ (lang = "Unlabelled" \/ lang = "Truncated")) \/ (role = "Terse" /\ lang = "en - english") \/
              (role = "Verbose" /\ lang = "es - español")).
  { unfold all in Hh. cbn [In] in Hh.
    repeat (destruct Hh as [<-|Hh]; [vm_compute in Hm; repeat (destruct Hm as [[= <- <-]|Hm]; [cbn in Ht; repeat (destruct Ht as [[= <- <-]|Ht]; [auto 8|]); destruct Ht|]); destruct Hm|]). destruct Hh. }
  clear h Hh m Hm Ht. unfold all in Hh'. cbn [In] in Hh'.
  destruct C as [[-> [-> | ->]]|[[-> ->]|[-> ->]]];
    repeat (destruct Hh' as [<-|Hh'];
      [vm_compute in R; try (exfalso; intuition discriminate); eexists; eexists; vm_compute;
       ((split; [left; reflexivity|]) || (split; [right; left; reflexivity|])); (left; reflexivity) || (right; left; reflexivity)|]); destruct Hh'.
Qed.
