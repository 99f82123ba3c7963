(** * AlikeProps: C165 for two servers, or for one before and after a restart *)
From Verif Require Import GoBase GoSpec GoFacts AttrModel AttrSpec AttrProofs SchemaModel SchemaSpec SchemaProofs SchemaProps
  LinkbaseModel LinkbaseSpec LinkbaseProofs LinkbaseProps InstanceModel InstanceSpec InstanceProofs InstanceProps
  HydrateModel HydrateSpec HydrateProofs HydrateProps LabelModel LabelSpec LabelProofs LabelProps PeriodModel PeriodSpec PeriodProofs PeriodProps
  FactModel FactSpec FactProofs FactProps GridModel GridSpec GridProofs GridProps CalcModel CalcSpec CalcProofs CalcProps DefModel DefSpec DefProofs DefProps
  RenderModel RenderSpec RenderProofs RenderProps ExpressModel ExpressSpec ExpressProofs ExpressProps
  DiscoverModel DiscoverSpec DiscoverProofs DiscoverProps XmlModel XmlSpec XmlProofs XmlProps LoadModel LoadSpec LoadProofs LoadProps
  CatalogModel CatalogSpec CatalogProofs CatalogProps ReportModel ResponseModel ResponseSpec ResponseProofs ResponseProps EndToEndSpec EndToEndProps
  ReportSpec ReportProofs ReportProps AskSpec AskProps SteadySpec SteadyProofs ImageModel ImageSpec ImageProofs ImageProps
  WebModel WebSpec WebProofs WebProps PathSpec RouterModel RouterSpec RouterProofs RouterProps.
From Verif Require CacheModel CacheSpec CacheProofs CacheProps.
From Verif Require Import ColumnProps ServerModel ServerSpec ServerProps ServedProps DocNameProps InertProps FactSameProps SameProofs SameProps AlikeProofs.
Local Open Scope nat_scope.
Local Open Scope string_scope.

Lemma at_most_one_any {A} (P : A -> Prop) l l' : Permutation l l' -> SteadySpec.at_most_one P l -> SteadySpec.at_most_one P l'.
Proof.
  intros H. apply pairs_perm; auto. intros x y N [? ?]. auto.
Qed.
Section Transfer.
  Variables (w : outside) (h h' : hydratable).
  Hypothesis A : alike (env_of (hFolder h) (o_url w) (o_schema w)) (env_of (hFolder h') (o_url w) (o_schema w)).
  Hypothesis I : hInstances h' = hInstances h.
  Hypothesis P : Permutation (hLabel h) (hLabel h').
  Lemma concept_transfer x : concept_for w h x = concept_for w h' x.
  Proof.
    unfold concept_for. pose proof (alike_hash _ _ A (fdNamespaces (hFolder h)) (fdNamespaces (hFolder h')) x) as E. unfold answer_of in E.
    destruct (hash_query _ (env_of (hFolder h) _ _) x) as [[n c]| |], (hash_query _ (env_of (hFolder h') _ _) x) as [[n' c']| |]; cbn [bind] in E; try discriminate E; try reflexivity.
    now injection E as ->.
  Qed.
  Lemma labels_transfer lbl : labels_from h lbl -> labels_from h' lbl.
  Proof. intros F href. destruct (F href) as (order&V&E). exists order. split; auto. unfold visited in *. etransitivity; [exact V|]. now apply Permutation_map. Qed.
  Lemma render_transfer e : renders_from w h e -> renders_from w h' e.
  Proof.
    intros [R1 R2 R3 R4 R5]. split; auto; [intro x; rewrite R1; apply concept_transfer|]. rewrite I. exact R2.
  Qed.
  Lemma plain_transfer : plain_report h -> plain_report h'.
  Proof.
    intros [P1 P2 P3]. split; [rewrite I; exact P1| |rewrite I; exact P3]. intro href. eapply at_most_one_any; [|apply P2]. now apply Permutation_map.
  Qed.
  (** the same, seen from the other load *)
  Definition asked_of (e : xenv) : xenv :=
    XEnv (xe_first e) (xe_facts e) (xe_contexts e) (xe_notes1 e) (xe_notes2 e) (env_of (hFolder h') (o_url w) (o_schema w)) (xe_labels e) (xe_concept e) (xe_render e)
      (xe_tree e) (xe_spanish e) (xe_typed_order e) (xe_member_order e).
  Lemma expression_transfer e : expression_from w h e -> expression_from w h' (asked_of e).
  Proof.
    intros [X1 X2 X3 X4 X5 X6 X7 X8 X9 X10 X11 X12 X13]. split; cbn [asked_of xe_first xe_facts xe_contexts xe_notes1 xe_notes2 xe_query xe_labels xe_concept xe_render xe_tree xe_spanish xe_typed_order xe_member_order];
      auto; try (rewrite I; assumption); [now apply labels_transfer|intro x; rewrite X8; apply concept_transfer|now apply render_transfer].
  Qed.
  Lemma expressed_transfer e name ref : expression_from w h e -> document_alike (hDocument h) (hDocument h') ->
    marshal_expressable e (hDocument h) name ref = marshal_expressable (asked_of e) (hDocument h') name ref.
  Proof.
    intros X D. unfold marshal_expressable. destruct (hDocument h) as [d|], (hDocument h') as [d'|]; try destruct D; try reflexivity.
    cbn [asked_of xe_first xe_facts xe_contexts xe_notes1 xe_notes2 xe_query xe_labels xe_concept xe_render xe_tree xe_spanish xe_typed_order xe_member_order].
    rewrite H, H0, (xf_query _ _ _ X). destruct (sget name (docNames d')) as [n|]; [|reflexivity]. destruct (sget ref (docContexts d')); [|reflexivity].
    rewrite (alike_name _ _ A). reflexivity.
  Qed.
  Lemma marshalled_transfer name ref o : document_alike (hDocument h) (hDocument h') -> marshalled_expressable w h name ref o -> marshalled_expressable w h' name ref o.
  Proof. intros D (e&X&->). exists (asked_of e). split; [now apply expression_transfer|]. now rewrite <- expressed_transfer. Qed.
End Transfer.

(** C165, for two loads of one folder in which every namespace has one document *)
Theorem C165_loads_partial : forall d w dir name images images' pf sh sh' tokens utr h h' fact ref o o', supported name ->
  loaded d dir name images pf sh tokens utr h -> loaded d dir name images' pf sh' tokens utr h' ->
  (forall file root ns, entry_at d dir root name file -> one_claim d dir root ns) -> plain_report h ->
  marshalled_expressable w h fact ref o -> marshalled_expressable w h' fact ref o' -> o = o'.
Proof.
  intros d w dir name images images' pf sh sh' tokens utr h h' fact ref o o' S L L' ONE PR M M'.
  destruct (loads_alike _ _ _ _ _ _ _ _ _ _ _ _ S L L' ONE) as (A&I&D&_).
  pose proof (loads_labels _ _ _ _ _ _ _ _ _ _ _ _ S L L' ONE) as P.
  refine (C165_same_partial w h' fact ref o o' (plain_transfer h h' I P PR) (marshalled_transfer w h h' (A _ _) I P _ _ _ D M) M').
Qed.
Print Assumptions C165_loads_partial.

(** ... and for what servers send: two servers, or one before and after a restart, whatever they were asked before. *)
Theorem C165_served_partial : forall w detect detect' files files' s s' id query query' vs vs' n c n1 c1 k ref p p', history w s -> history w s' -> entry_name_ok id ->
  (forall name h, report_of w id name h -> plain_report h) ->
  (forall name file root ns, entry_named w id name -> entry_at (w_disk w) (folder_at w id) root name file -> one_claim (w_disk w) (folder_at w id) root ns) ->
  query_fields query vs -> field vs "name" n -> field vs "contextref" c -> encodes k n -> encodes ref c ->
  query_fields query' vs' -> field vs' "name" n1 -> field vs' "contextref" c1 -> encodes k n1 -> encodes ref c1 ->
  exchanged detect files s "GET" ("/folders/" ++ id ++ "/facts") query (Answer (Some p)) -> status p = 200 -> body p <> "" ->
  exchanged detect' files' s' "GET" ("/folders/" ++ id ++ "/facts") query' (Answer (Some p')) -> status p' = 200 -> body p' <> "" ->
  body p' = body p.
Proof.
  intros w detect detect' files files' s s' id query query' vs vs' n c n1 c1 k ref p p' H H' I PR ONE Q F1 F2 E1 E2 Q' F1' F2' E1' E2' X ST B X' ST' B'.
  eapply get_fact in X; [|exact I|exact Q|exact F1|exact F2|exact E1|exact E2|exact ST|exact B]. eapply get_fact in X'; [|exact I|exact Q'|exact F1'|exact F2'|exact E1'|exact E2'|exact ST'|exact B'].
  apply (uncached_content w s _ _ H) in X as (rep&HY&M). apply (uncached_content w s' _ _ H') in X' as (rep'&HY'&M').
  apply hydrated_report in HY as (name&R&_&_&_&DI&_). apply hydrated_report in HY' as (name'&R'&_&_&_&DI'&_).
  pose proof R as (N&images&sh&_&L). pose proof R' as (N'&images'&sh'&_&L'). assert (name' = name) as -> by (eapply one_name; [exact N|exact N']).
  assert (S : supported name). { left. apply DI. intro E. destruct M as (e&_&M). rewrite E in M. discriminate M. }
  pose proof (C165_loads_partial _ _ _ _ _ _ _ _ _ _ _ _ _ _ _ _ _ S L L' (fun file root ns => ONE name file root ns N) (PR _ _ R) M M') as E. congruence.
Qed.
Print Assumptions C165_served_partial.

(** The hypotheses are met: every load of this folder is plain, its namespace has one document, and a fact is answered. *)
Lemma ask_plain_report doc : plain_report (ask_hydratable doc).
Proof.
  split.
  - assert (I : length (hInstances (ask_hydratable doc)) = 1) by (vm_compute; reflexivity). destruct (hInstances _) as [|[n i] [|]]; try discriminate I. eauto.
  - intro href. assert (E : hLabel (ask_hydratable doc) = []) by (vm_compute; reflexivity). rewrite E. constructor.
  - assert (E : forall n i, In (n, i) (hInstances (ask_hydratable doc)) -> Forall (fun c => dcTyped (ctxSegment c) ++ dcTyped (ctxScenario c) = [])%list (iContexts i)).
    { vm_compute. intros n i [X|[]]. injection X as <- <-. repeat constructor. }
    intros n i c t I C T. specialize (E n i I). rewrite Forall_forall in E. rewrite (E c C) in T. destruct T.
Qed.
Lemma ask_one name file root ns : entry_named DocNameProps.ask_world "f" name -> entry_at (w_disk DocNameProps.ask_world) (folder_at DocNameProps.ask_world "f") root name file ->
  one_claim (w_disk DocNameProps.ask_world) (folder_at DocNameProps.ask_world "f") root ns.
Proof.
  intros (b&_&E) EA. assert (name = "x.htm") as -> by (cbn in E; congruence).
  assert (root = ask_root) as -> by (eapply entry_root; [exact ask_entry|exact EA]). intros x x' C C'.
  change (claims_at ask_disk small_dir ask_root ns x) in C. change (claims_at ask_disk small_dir ask_root ns x') in C'. apply ask_claims in C, C'. congruence.
Qed.
Example C165_served_example : exists files s p vs, history DocNameProps.ask_world s /\ entry_name_ok "f" /\
  (forall name h, report_of DocNameProps.ask_world "f" name h -> plain_report h) /\
  (forall name file root ns, entry_named DocNameProps.ask_world "f" name -> entry_at (w_disk DocNameProps.ask_world) (folder_at DocNameProps.ask_world "f") root name file ->
     one_claim (w_disk DocNameProps.ask_world) (folder_at DocNameProps.ask_world "f") root ns) /\
  query_fields "name=a:A&contextref=c" vs /\ field vs "name" "a:A" /\ field vs "contextref" "c" /\ encodes "a:A" "a:A" /\ encodes "c" "c" /\
  exchanged (w_detect DocNameProps.ask_world) files s "GET" "/folders/f/facts" "name=a:A&contextref=c" (Answer (Some p)) /\ status p = 200 /\ body p <> "".
Proof.
  destruct C163_example as (_&_&files&s&p&vs&H&Q&F1&F2&E1&E2&X&ST&B). exists files, s, p, vs. split; [exact H|]. split; [repeat split; discriminate|].
  split; [|split; [exact ask_one|auto 12]].
  intros name h (N&im&sh&_&L). destruct ask_loaded as (doc&_&_&L0).
  assert (name = "x.htm") as -> by (destruct N as (b&_&E); cbn in E; congruence).
  assert (S : supported "x.htm") by (left; apply x_inline).
  destruct (loads_alike _ _ _ _ _ _ _ _ _ _ _ _ S L0 L (fun file root ns => ask_one _ file root ns N)) as (_&I&_).
  pose proof (loads_labels _ _ _ _ _ _ _ _ _ _ _ _ S L0 L (fun file root ns => ask_one _ file root ns N)) as P.
  exact (plain_transfer _ _ I P (ask_plain_report doc)).
Qed.
