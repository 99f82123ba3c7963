(** * PaddedProps: C146 for dates with white space around them *)
From Coq Require Import String List Bool Arith Lia Permutation ZArith.
From Verif Require Import GoBase GoSpec GoFacts AttrModel AttrSpec AttrProofs SchemaModel SchemaSpec SchemaProofs SchemaProps
  LinkbaseModel LinkbaseSpec LinkbaseProofs LinkbaseProps InstanceModel InstanceSpec InstanceProofs InstanceProps
  HydrateModel HydrateSpec HydrateProofs HydrateProps LabelModel LabelSpec LabelProofs LabelProps PeriodModel PeriodSpec PeriodProofs PeriodProps
  FactModel FactSpec FactProofs FactProps GridModel GridSpec GridProofs GridProps CalcModel CalcSpec CalcProofs CalcProps DefModel DefSpec DefProofs DefProps
  RenderModel RenderSpec RenderProofs RenderProps ExpressModel ExpressSpec ExpressProofs ExpressProps
  DiscoverModel DiscoverSpec DiscoverProofs DiscoverProps XmlModel XmlSpec XmlProofs XmlProps LoadModel LoadSpec LoadProofs LoadProps
  CatalogModel CatalogSpec CatalogProofs CatalogProps ReportModel ResponseModel ResponseSpec ResponseProofs ResponseProps EndToEndSpec EndToEndProps
  ReportSpec ReportProofs ReportProps AskSpec AskProps ImageModel ImageSpec ImageProofs ImageProps
  WebModel WebSpec WebProofs WebProps PathSpec RouterModel RouterSpec RouterProofs RouterProps.
From Verif Require CacheModel CacheSpec CacheProofs CacheProps.
From Verif Require Import ColumnSpec ColumnProofs ColumnProps NetworkSpec NetworkProps DimNetSpec DimNetProps ServerModel ServerSpec ServerProps ServedProps SetupModel SetupProps ReaderSpec ReaderProps.
Import ListNotations.
Local Open Scope string_scope.

(** ** A schedule to the end: the first goroutine that can move does *)
Fixpoint onward (n : nat) (c : rconf) : rconf :=
  match n with
  | O => c
  | S k => match follow [(0, 0)] c with
           | Some c' => onward k c'
           | None => match follow [(1, 0)] c with
                     | Some c' => onward k c'
                     | None => match follow [(2, 0)] c with Some c' => onward k c' | None => c end
                     end
           end
  end.
Lemma follow_cons s l c c' c'' : follow [s] c = Some c' -> follow l c' = Some c'' -> follow (s :: l) c = Some c''.
Proof.
  destruct s as [i cap]. cbn [follow]. destruct (nth_error _ _) as [t|]; [|discriminate]. destruct (tstep _ _ _) as [[m t']|]; [|discriminate].
  intros [= <-] E. exact E.
Qed.
Lemma onward_follows n : forall c, exists l, follow l c = Some (onward n c).
Proof.
  induction n as [|n IH]; intro c; cbn [onward]; [exists []; reflexivity|].
  destruct (follow [(0, 0)] c) as [c'|] eqn:E0; [destruct (IH c') as (l&F); eexists; eapply follow_cons; eauto|].
  destruct (follow [(1, 0)] c) as [c'|] eqn:E1; [destruct (IH c') as (l&F); eexists; eapply follow_cons; eauto|].
  destruct (follow [(2, 0)] c) as [c'|] eqn:E2; [destruct (IH c') as (l&F); eexists; eapply follow_cons; eauto|].
  exists []. reflexivity.
Qed.
Lemma onward_steps n c : rsteps c (onward n c).
Proof. destruct (onward_follows n c) as (l&F). eapply follow_steps; eauto. Qed.

(** ** The answer that this schedule gives *)
Lemma rendering_with w h slug e r name pg rs ls conf langs headers :
  find_slug slug (sorted_entities (own_insts h)) (sorted_relationship_sets (map snd (hSchemas h))) = Some (e, r) ->
  entity_query (o_names w) (eScheme e) (eChar e) = Ok name ->
  own_p w h (stringify e) (rsRole r) = Ok (pg, rs, ls) -> own_d w h (stringify e) (rsRole r) <> Panic -> own_c w h (stringify e) (rsRole r) <> Panic ->
  rsteps (RenderModel.started (own_p w h (stringify e) (rsRole r)) (own_d w h (stringify e) (rsRole r)) (own_c w h (stringify e) (rsRole r))) conf ->
  rdone conf -> final_langs conf = langs -> pgPeriods (format_p (o_spanish w) langs pg) = headers ->
  exists bytes v, marshalled_renderable w h slug (Ok (Some bytes)) /\ reads_as bytes v /\ the_member v "Lang" (list_of shows langs) /\
    the_member v "PGrid" (fun u => the_member u "PeriodHeaders" (list_of languages headers)).
Proof.
  intros F Q P D C R DN FL PH.
  pose proof (rr_done w h slug _ _ e r _ _ _ conf (visited_own _) (visited_own _) F (own_p_grids w h _ _) (own_d_grids w h _ _) (own_c_grids w h _ _)
    ltac:(rewrite P; discriminate) D C R DN) as M. apply mr_returned in M.
  unfold marshal_renderable in M. unfold own_insts in F. rewrite F, Q in M. cbn [renderable_bytes bind rnSet] in M.
  unfold rendered in M. rewrite FL in M. match type of M with context [Renderable r (Subject name e) (?g, ?a, ?b)] =>
    destruct (C119_renderable (linked (rsRole r) (map snd (hCalculation h))) r (Subject name e) g a b) as (v&J&V) end.
  eexists. exists v. split; [exact M|]. split; [exact J|]. split.
  { eapply (the_member_of _ _ "Lang"); [exact V| |do 2 right; left; reflexivity]. cbn; repeat constructor; simpl; intuition congruence. }
  eapply the_member_impl; [|eapply (the_member_of _ _ "PGrid"); [exact V| |do 4 right; left; reflexivity]].
  2:{ cbn; repeat constructor; simpl; intuition congruence. }
  intros u U. cbn [gdP] in U. rewrite P in U. cbn [grid_or] in U. rewrite <- PH.
  eapply (the_member_of _ _ "PeriodHeaders"); [exact U| |right; left; reflexivity].
  cbn; repeat constructor; simpl; intuition congruence.
Qed.

(** ** A report whose only date has white space around it, with labels in English *)
Definition padded_instant : tree := xi "instant" [] [txt " 2020-12-31 "].
Definition padded_period : tree := xi "period" [] [padded_instant].
Definition padded_context : tree := xi "context" [pa "id" "c"] [xi "entity" [] [xi "identifier" [pa "scheme" "urn:s"] [txt "0"]]; padded_period].
Definition padded_root : tree := xi "xbrl" [XAttr (XName "xmlns" "i") iso4217; XAttr (XName "xmlns" "x") xbrli]
  [schema_ref_to "a.xsd"; padded_context; share_unit; share_fact_tree].
Definition called_in_english (n s : string) : list tree :=
  [loc_of n; lk "label" [xl "type" "resource"; xl "label" ("l" ++ n); xl "role" "http://www.xbrl.org/2003/role/label"; pa "lang" "en-US"] [txt s];
   lk "labelArc" [xl "type" "arc"; xl "arcrole" "http://www.xbrl.org/2003/arcrole/concept-label"; xl "from" n; xl "to" ("l" ++ n); pa "order" "1"] []].
Definition english_labels : tree := lk "linkbase" []
  [lk "roleRef" [xl "type" "simple"; pa "roleURI" "urn:r"; xl "href" "a.xsd#r"] [];
   lk "labelLink" [xl "type" "extended"; xl "role" "urn:r"] (called_in_english "R" "Cover" ++ called_in_english "A" "Dividend")].
Definition padded_disk : disk :=
  small_disk [(in_dir "x.xml", padded_root); (in_dir "a.xsd", share_schema); (in_dir "pre.xml", pair_links); (in_dir "lab.xml", english_labels)].
Definition padded_end : state := go_on (files_of padded_disk) small_dir 20
  (schema_ref (files_of padded_disk) small_dir (first_folder (files_of padded_disk) small_dir "x.xml") (instance_struct padded_root)).
Definition padded_folder : folder := DiscoverModel.finish "x.xml" (instance_struct padded_root) (fst padded_end).
Definition padded_loads := hydrate ex_pf plain_order (d_url padded_disk) (global_schema_file padded_disk) ex_tokens share_registry (Ok None) padded_folder.
Definition padded_report : hydratable := match padded_loads with Ok h => h | _ => Hydratable padded_folder [] None [] [] [] [] [] [] end.
Definition padded_outside : outside :=
  Outside (d_url padded_disk) (global_schema_file padded_disk) share_registry (Ok [("urn:s", [("0", "ACME")])]) sample_tree (fun _ => [])
    (fun _ s _ => Some ("", s, "")) (fun _ => None) (fun _ => "") (fun _ => Some "31 de diciembre de 2020").
Lemma padded_entry : entry_at padded_disk small_dir padded_root "x.xml" "x.xml".
Proof. apply small_entry_at; [reflexivity|do 4 eexists; reflexivity]. Qed.
Lemma padded_loaded : loaded padded_disk small_dir "x.xml" false ex_pf plain_order ex_tokens share_registry padded_report.
Proof.
  exists padded_folder, (Ok None). split; [|split; [vm_compute; constructor|vm_compute; reflexivity]].
  assert (EI : entry_instance (files_of padded_disk) small_dir "x.xml" "x.xml" (instance_struct padded_root)) by (apply entry_iff; eauto using padded_entry).
  apply (discover_iff _ _ _ _ _ _ _ EI). exists padded_end. split; [apply go_on_runs; constructor|]. split; [vm_compute; repeat constructor|reflexivity].
Qed.
Definition padded_p := own_p padded_outside padded_report (stringify pair_entity) (rsRole pair_set).
Definition padded_d := own_d padded_outside padded_report (stringify pair_entity) (rsRole pair_set).
Definition padded_c := own_c padded_outside padded_report (stringify pair_entity) (rsRole pair_set).
Definition padded_conf : rconf := onward 200 (RenderModel.started padded_p padded_d padded_c).
Definition padded_langs := Eval vm_compute in final_langs padded_conf.
Lemma padded_ended : rsteps (RenderModel.started padded_p padded_d padded_c) padded_conf /\ rdone padded_conf /\ final_langs padded_conf = padded_langs.
Proof.
  split; [apply onward_steps|]. split; [|vm_compute; reflexivity].
  assert (E : forallb (fun t => match thTodo t with [] => true | _ => false end) (rcThreads padded_conf) = true) by (vm_compute; reflexivity).
  intros t Ht. rewrite forallb_forall in E. specialize (E t Ht). clear -E. destruct (thTodo t); [reflexivity|discriminate E].
Qed.
Lemma padded_headers : exists pg rs ls, padded_p = Ok (pg, rs, ls) /\
  pgPeriods (format_p (o_spanish padded_outside) padded_langs pg) = [[("Unlabelled", " 2020-12-31 "); ("Truncated", " 2020-12-31 "); ("en - english", " 2020-12-31 ")]].
Proof.
  assert (E : match padded_p with Ok (pg, _, _) => pgPeriods (format_p (o_spanish padded_outside) padded_langs pg) | _ => [] end =
    [[("Unlabelled", " 2020-12-31 "); ("Truncated", " 2020-12-31 "); ("en - english", " 2020-12-31 ")]]) by (vm_compute; reflexivity).
  revert E. destruct padded_p as [[[pg rs] ls]|m|]; intro E; [exists pg, rs, ls; split; [reflexivity|exact E]|discriminate E|discriminate E].
Qed.
Lemma padded_answer : exists bytes v, marshalled_renderable padded_outside padded_report pair_slug (Ok (Some bytes)) /\ reads_as bytes v /\
  the_member v "Lang" (list_of shows padded_langs) /\
  the_member v "PGrid" (fun u => the_member u "PeriodHeaders" (list_of languages [[("Unlabelled", " 2020-12-31 "); ("Truncated", " 2020-12-31 "); ("en - english", " 2020-12-31 ")]])).
Proof.
  destruct padded_ended as (R&DN&FL). destruct padded_headers as (pg&rs&ls&P&PH).
  assert (F : find_slug pair_slug (sorted_entities (own_insts padded_report)) (sorted_relationship_sets (map snd (hSchemas padded_report))) = Some (pair_entity, pair_set))
    by (vm_compute; reflexivity).
  assert (ND : padded_d <> Panic) by (vm_compute; discriminate).
  assert (NC : padded_c <> Panic) by (vm_compute; discriminate).
  assert (Q : entity_query (o_names padded_outside) (eScheme pair_entity) (eChar pair_entity) = Ok "ACME") by (vm_compute; reflexivity).
  exact (rendering_with padded_outside padded_report pair_slug pair_entity pair_set "ACME" pg rs ls padded_conf padded_langs _ F Q P ND NC R DN FL PH).
Qed.

(** ** C146 *)
(** C146 fails: a date may have white space around it (the white space of a date does not count), but
    the header of the column then says neither the date nor, in English, which English readers are
    offered, its text. *)
Theorem C146_refuted :
  exists d dir name images pf sh tokens utr h root w slug bytes v langs x p t,
    supported name /\ loaded d dir name images pf sh tokens utr h /\ (exists file, entry_at d dir root name file) /\
    o_url w = d_url d /\ o_schema w = global_schema_file d /\
    marshalled_renderable w h slug (Ok (Some bytes)) /\ reads_as bytes v /\
    In x (kids root) /\ named xbrli "context" x /\ (forall y, In y (kids root) -> named xbrli "context" y -> y = x) /\
    first_child xbrli "period" x p /\ first_child xbrli "instant" p t /\ XmlSpec.value t "2020-12-31" /\
    the_member v "Lang" (list_of shows langs) /\ In "en - english" langs /\
    shown_english "2020-12-31" "as of December 31, 2020" /\
    the_member v "PGrid" (fun u => the_member u "PeriodHeaders"
      (list_of languages [[("Unlabelled", " 2020-12-31 "); ("Truncated", " 2020-12-31 "); ("en - english", " 2020-12-31 ")]])).
Proof.
  destruct padded_answer as (bytes&v&M&J&L&P).
  exists padded_disk, small_dir, "x.xml", false, ex_pf, plain_order, ex_tokens, share_registry, padded_report, padded_root, padded_outside, pair_slug,
    bytes, v, padded_langs, padded_context, padded_period, padded_instant.
  split; [exact x_supported|]. split; [exact padded_loaded|]. split; [eexists; exact padded_entry|]. split; [reflexivity|]. split; [reflexivity|].
  split; [exact M|]. split; [exact J|]. split; [simpl; auto|]. split; [do 3 eexists; reflexivity|]. split.
  { intros y Hy (?&?&?&N). simpl in Hy. repeat destruct Hy as [<-|Hy]; try contradiction; try discriminate N. reflexivity. }
  split.
  { exists [xi "entity" [] [xi "identifier" [pa "scheme" "urn:s"] [txt "0"]]], []. split; [reflexivity|]. split; [do 3 eexists; reflexivity|].
    intros y [<-|[]] (?&?&?&N). discriminate N. }
  split.
  { exists [], []. split; [reflexivity|]. split; [do 3 eexists; reflexivity|]. intros y []. }
  split; [unfold XmlSpec.value; apply trimmed_iff; reflexivity|].
  split; [exact L|]. split; [vm_compute; auto|]. split; [|exact P].
  apply (C51_english (fun _ => None)); [intros r E; discriminate E|]. vm_compute. reflexivity.
Qed.
Print Assumptions C146_refuted.
