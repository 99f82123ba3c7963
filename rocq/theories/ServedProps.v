(** * ServedProps: C129 and C136-C138 for the running server (what its clients see of the files on disk) *)
From Verif Require Import GoBase GoSpec GoFacts AttrModel AttrSpec AttrProofs SchemaModel SchemaSpec SchemaProofs SchemaProps
  LinkbaseModel LinkbaseSpec LinkbaseProofs LinkbaseProps InstanceModel InstanceSpec InstanceProofs InstanceProps
  HydrateModel HydrateSpec HydrateProofs HydrateProps LabelModel LabelSpec LabelProofs LabelProps PeriodModel PeriodSpec PeriodProofs PeriodProps
  FactModel FactSpec FactProofs FactProps GridModel GridSpec GridProofs GridProps CalcModel CalcSpec CalcProofs CalcProps DefModel DefSpec DefProofs DefProps
  RenderModel RenderSpec RenderProofs RenderProps ExpressModel ExpressSpec ExpressProofs ExpressProps
  DiscoverModel DiscoverSpec DiscoverProofs DiscoverProps XmlModel XmlSpec XmlProofs XmlProps LoadModel LoadSpec LoadProofs LoadProps
  CatalogModel CatalogSpec CatalogProofs CatalogProps ReportModel ResponseModel ResponseSpec ResponseProofs ResponseProps EndToEndSpec EndToEndProps
  ReportSpec ReportProofs ReportProps AskSpec AskProps ImageModel ImageSpec ImageProofs ImageProps
  WebModel WebSpec WebProofs WebProps PathSpec RouterModel RouterSpec RouterProofs RouterProps.
From Verif Require CacheModel CacheSpec CacheProofs CacheProps.
From Verif Require Import ColumnSpec ColumnProofs ColumnProps NetworkSpec NetworkProps DimNetSpec DimNetProps ServerModel ServerSpec ServerProps.
Local Open Scope string_scope.

(** what has been sent: the document of the folder, or a network of its report *)
Lemma network_sent w detect files s id slug query p : history w s ->
  entry_name_ok id -> entry_name_ok slug -> slug <> "facts" ->
  exchanged detect files s "GET" ("/folders/" ++ id ++ "/" ++ slug) query (Answer (Some p)) -> status p = 200 -> body p <> "" ->
  exists name h, report_of w id name h /\
    ((slug = name /\ inline_name name /\ document_sent w id name (body p)) \/
     (supported name /\ marshalled_renderable (out w) h slug (Ok (Some (body p))))).
Proof.
  intros H I J N X ST B. apply get_renderable in X; auto.
  apply (uncached_content w s _ _ H) in X as (rep&HY&M).
  apply hydrated_report in HY as (name&R&BY&EN&DI&_&NI). exists name, (rp_hydratable rep). split; auto.
  destruct M as [[[ND _] D]|[_ M]].
  - left. cbn in ND, D. rewrite EN in ND. subst slug. destruct (rp_bytes rep) as [b|]; [|discriminate]. injection D as <-.
    unfold bytes_of in BY. destruct (fdDocument (hFolder (rp_hydratable rep))) as [d|] eqn:ED; [|discriminate].
    split; auto. split; [eauto|]. rewrite EN in BY. now apply document_sent_of.
  - right. cbn in M. split; [|now apply mr_returned].
    destruct (inline_dec name) as [A|A]; [now left|]. destruct (instance_dec name) as [A'|A']; [now right|].
    exfalso. apply renderable_instances in M; [discriminate M|]. apply NI. intros [S|S]; auto.
Qed.

(** C129 for the running server, whatever it has been asked before: where the body is not empty and it is not
    the document of the folder, the rows of the presentation grid are the outline that a presentation linkbase
    of the folder draws. *)
Theorem C129_served_presentation_partial : forall w detect files s id slug query p, history w s ->
  entry_name_ok id -> entry_name_ok slug -> slug <> "facts" ->
  exchanged detect files s "GET" ("/folders/" ++ id ++ "/" ++ slug) query (Answer (Some p)) -> status p = 200 -> body p <> "" ->
  exists name h, report_of w id name h /\
    ((slug = name /\ inline_name name /\ document_sent w id name (body p)) \/
     (exists file root, entry_at (w_disk w) (folder_at w id) root name file /\
        (plain_books (w_disk w) (folder_at w id) root ->
         (forall x t role locs arcs, linkbase_at (w_disk w) (folder_at w id) root Presentation x t -> presentation_in (w_float w) t role locs arcs ->
            orders_are_numbers (outline (o_tree (w_out w)) arcs)) ->
         exists e r v, is_slug e r slug /\ reads_as (body p) v /\ has v "RelationshipSet" (relationship_set r) /\
           the_member v "PGrid" (rows_shown (w_disk w) (folder_at w id) root (w_float w) (o_tree (w_out w)) (rsRole r))))).
Proof.
  intros w detect files s id slug query p H I J N X ST B.
  destruct (network_sent _ _ _ _ _ _ _ _ H I J N X ST B) as (name&h&R&M). exists name, h. split; auto. destruct M as [M|[SN M]]; [now left|right].
  destruct R as (_&images&sh&O&L). destruct (C129_presentation_partial _ _ _ _ _ _ _ _ _ O SN L) as (file&root&EA&K). exists file, root. split; auto.
  intros PB NN. exact (K PB (out w) slug (body p) NN M).
Qed.
Print Assumptions C129_served_presentation_partial.

(** The totals of the calculation grid are those that a calculation linkbase of the folder draws. *)
Theorem C129_served_calculation_partial : forall w detect files s id slug query p, history w s ->
  entry_name_ok id -> entry_name_ok slug -> slug <> "facts" ->
  exchanged detect files s "GET" ("/folders/" ++ id ++ "/" ++ slug) query (Answer (Some p)) -> status p = 200 -> body p <> "" ->
  exists name h, report_of w id name h /\
    ((slug = name /\ inline_name name /\ document_sent w id name (body p)) \/
     (exists file root, entry_at (w_disk w) (folder_at w id) root name file /\
        (plain_books (w_disk w) (folder_at w id) root ->
         (forall x t, known (w_disk w) (folder_at w id) root x t -> plain_declarations t) ->
         (forall x t role locs arcs a, linkbase_at (w_disk w) (folder_at w id) root Calculation x t -> calculation_in (w_float w) t role locs arcs -> In a arcs ->
            caOrder a <> S754_nan) ->
         exists e r v, is_slug e r slug /\ reads_as (body p) v /\ has v "RelationshipSet" (relationship_set r) /\
           the_member v "CGrid" (sums_shown (w_disk w) (folder_at w id) root (w_float w) (rsRole r))))).
Proof.
  intros w detect files s id slug query p H I J N X ST B.
  destruct (network_sent _ _ _ _ _ _ _ _ H I J N X ST B) as (name&h&R&M). exists name, h. split; auto. destruct M as [M|[SN M]]; [now left|right].
  destruct R as (_&images&sh&O&L). destruct (C129_calculation_partial _ _ _ _ _ _ _ _ _ O SN L) as (file&root&EA&K). exists file, root. split; auto.
  intros PB PD NN. exact (K PB PD NN (out w) slug (body p) eq_refl eq_refl M).
Qed.
Print Assumptions C129_served_calculation_partial.

(** C136 for the running server: the links of the definition grid are the arcs of the definition linkbases
    of the folder. *)
Theorem C136_served_links_partial : forall w detect files s id slug query p, history w s ->
  entry_name_ok id -> entry_name_ok slug -> slug <> "facts" ->
  exchanged detect files s "GET" ("/folders/" ++ id ++ "/" ++ slug) query (Answer (Some p)) -> status p = 200 -> body p <> "" ->
  exists name h, report_of w id name h /\
    ((slug = name /\ inline_name name /\ document_sent w id name (body p)) \/
     (exists file root, entry_at (w_disk w) (folder_at w id) root name file /\
        (plain_books (w_disk w) (folder_at w id) root -> plain_definitions (w_disk w) (folder_at w id) root ->
         exists e r v, is_slug e r slug /\ reads_as (body p) v /\ has v "RelationshipSet" (relationship_set r) /\
           the_member v "DGrid" (fun u => the_member u "DRS"
             (links_shown (w_disk w) (folder_at w id) root (w_float w) (o_order (w_out w)) (rsRole r)))))).
Proof.
  intros w detect files s id slug query p H I J N X ST B.
  destruct (network_sent _ _ _ _ _ _ _ _ H I J N X ST B) as (name&h&R&M). exists name, h. split; auto. destruct M as [M|[SN M]]; [now left|right].
  destruct R as (_&images&sh&O&L). destruct (C136_links_partial _ _ _ _ _ _ _ _ _ O SN L) as (file&root&EA&K). exists file, root. split; auto.
  intros PB PD. exact (K PB PD (out w) slug (body p) M).
Qed.
Print Assumptions C136_served_links_partial.

(** Its roots, items, dimensions and domains are those these arcs draw. *)
Theorem C136_served_roots_partial : forall w detect files s id slug query p, history w s ->
  entry_name_ok id -> entry_name_ok slug -> slug <> "facts" ->
  exchanged detect files s "GET" ("/folders/" ++ id ++ "/" ++ slug) query (Answer (Some p)) -> status p = 200 -> body p <> "" ->
  exists name h, report_of w id name h /\
    ((slug = name /\ inline_name name /\ document_sent w id name (body p)) \/
     (exists file root, entry_at (w_disk w) (folder_at w id) root name file /\
        (plain_books (w_disk w) (folder_at w id) root -> plain_definitions (w_disk w) (folder_at w id) root ->
         (forall x t role locs arcs, linkbase_at (w_disk w) (folder_at w id) root Definitional x t -> definition_in (w_float w) t role locs arcs ->
            orders_are_numbers (dim_net (o_tree (w_out w)) arcs "domain-member")) ->
         exists e r v, is_slug e r slug /\ reads_as (body p) v /\ has v "RelationshipSet" (relationship_set r) /\
           the_member v "DGrid" (roots_shown (w_disk w) (folder_at w id) root (w_float w) (o_tree (w_out w)) (rsRole r))))).
Proof.
  intros w detect files s id slug query p H I J N X ST B.
  destruct (network_sent _ _ _ _ _ _ _ _ H I J N X ST B) as (name&h&R&M). exists name, h. split; auto. destruct M as [M|[SN M]]; [now left|right].
  destruct R as (_&images&sh&O&L). destruct (C136_roots_partial _ _ _ _ _ _ _ _ _ O SN L) as (file&root&EA&K). exists file, root. split; auto.
  intros PB PD NN. exact (K PB PD (out w) slug (body p) NN M).
Qed.
Print Assumptions C136_served_roots_partial.

(** C137 for the running server: every member of the columns shown is shown as written in the instance
    of the folder. *)
Theorem C137_served_members_partial : forall w detect files s id slug query p, history w s ->
  entry_name_ok id -> entry_name_ok slug -> slug <> "facts" ->
  exchanged detect files s "GET" ("/folders/" ++ id ++ "/" ++ slug) query (Answer (Some p)) -> status p = 200 -> body p <> "" ->
  exists name h, report_of w id name h /\
    ((slug = name /\ inline_name name /\ document_sent w id name (body p)) \/
     (exists file root, entry_at (w_disk w) (folder_at w id) root name file /\
        (well_written (w_disk w) (folder_at w id) root ->
         exists facts contexts q, understands (w_disk w) (folder_at w id) root q /\ facts_written (w_disk w) (folder_at w id) root facts /\
           contexts_written root q (content_of q (w_tokens w) (attributes root)) contexts /\
         exists e r v, is_slug e r slug /\ reads_as (body p) v /\
           has v "Subject" (fun u => has u "Entity" (entity_value e)) /\ has v "RelationshipSet" (relationship_set r) /\
           let shown u rows cols :=
             grid_shows facts contexts (reports (w_disk w) (folder_at w id) root) (eScheme e ++ "/" ++ eChar e) (renders_from (out w) h) u rows cols /\
             members_shown (o_tree (w_out w)) u cols in
           presentation_with shown v /\ definition_with shown v /\ calculation_with shown v))).
Proof.
  intros w detect files s id slug query p H I J N X ST B.
  destruct (network_sent _ _ _ _ _ _ _ _ H I J N X ST B) as (name&h&R&M). exists name, h. split; auto. destruct M as [M|[SN M]]; [now left|right].
  destruct R as (_&images&sh&O&L). destruct (C137_members_partial _ _ _ _ _ _ _ _ _ SN L) as (file&root&EA&K). exists file, root. split; auto.
  intro WW. destruct (K WW) as (facts&contexts&q&A1&A2&A3&A4). exists facts, contexts, q. do 3 (split; [assumption|]).
  exact (A4 (out w) slug (body p) eq_refl eq_refl M).
Qed.
Print Assumptions C137_served_members_partial.

(** C138 for the running server: the footnotes of the grids sent are those linked in the instance of the folder
    to the facts shown. *)
Theorem C138_served_footnotes_partial : forall w detect files s id slug query p, history w s ->
  entry_name_ok id -> entry_name_ok slug -> slug <> "facts" ->
  exchanged detect files s "GET" ("/folders/" ++ id ++ "/" ++ slug) query (Answer (Some p)) -> status p = 200 -> body p <> "" ->
  exists name h, report_of w id name h /\
    ((slug = name /\ inline_name name /\ document_sent w id name (body p)) \/
     (exists file root, entry_at (w_disk w) (folder_at w id) root name file /\
        (well_written (w_disk w) (folder_at w id) root -> own_links root "footnoteLink" ["footnote"; "loc"; "footnoteArc"] ->
         exists facts contexts links q, understands (w_disk w) (folder_at w id) root q /\ facts_written (w_disk w) (folder_at w id) root facts /\
           contexts_written root q (content_of q (w_tokens w) (attributes root)) contexts /\ links_written root links /\
         (faithful_tree (o_tree (w_out w)) -> tidy links facts ->
          exists e r v, is_slug e r slug /\ reads_as (body p) v /\
            has v "Subject" (fun u => has u "Entity" (entity_value e)) /\ has v "RelationshipSet" (relationship_set r) /\
            let shown u rows cols :=
              grid_shows facts contexts (reports (w_disk w) (folder_at w id) root) (eScheme e ++ "/" ++ eChar e) (renders_from (out w) h) u rows cols /\
              notes_shown links facts u rows cols in
            presentation_with shown v /\ definition_with shown v /\ calculation_with shown v)))).
Proof.
  intros w detect files s id slug query p H I J N X ST B.
  destruct (network_sent _ _ _ _ _ _ _ _ H I J N X ST B) as (name&h&R&M). exists name, h. split; auto. destruct M as [M|[SN M]]; [now left|right].
  destruct R as (_&images&sh&O&L). destruct (C138_footnotes_partial _ _ _ _ _ _ _ _ _ SN L) as (file&root&EA&K). exists file, root. split; auto.
  intros WW OL. destruct (K WW OL) as (facts&contexts&links&q&A1&A2&A3&A4&A5). exists facts, contexts, links, q. do 4 (split; [assumption|]).
  intros FT TD. exact (A5 (out w) slug (body p) eq_refl eq_refl FT TD M).
Qed.
Print Assumptions C138_served_footnotes_partial.

(** ** Satisfiability *)
Definition world_with (d : disk) (o : outside) : world :=
  World d "/wd" (fun _ => Ok "x.xml") (fun _ => None) (fun _ => "") (fun _ => "") (fun _ => None) (fun _ => None) ex_pf ex_tokens o.
Lemma asked_for d o h b : d_file d "/wd/folders/f/_" = Some "/wd/folders/f/_" ->
  loaded d small_dir "x.xml" false ex_pf plain_order ex_tokens (o_units o) h ->
  returned_renderable (out (world_with d o)) h pair_slug (Ok (Some b)) ->
  exists files s p, history (world_with d o) s /\ entry_name_ok "f" /\ entry_name_ok pair_slug /\ pair_slug <> "facts" /\
    exchanged (fun _ => "") files s "GET" ("/folders/f/" ++ pair_slug) "" (Answer (Some p)) /\ status p = 200 /\ body p = b.
Proof.
  intros FD L B. set (w := world_with d o) in *.
  destruct (loaded_hydrated w "f" "x.xml" plain_order h plain_orders) as (f&D&Y&_); [exists "/wd/folders/f/_"; split; [exact FD|reflexivity]|exact L|].
  assert (SL : is_slug pair_entity pair_set pair_slug) by apply hash_slug. pose proof (slug_part _ _ _ SL) as [SE SF].
  destruct (ask_grid w "f" f h D Y pair_slug ltac:(vm_compute; split; discriminate) _ B) as (c&Q).
  destruct (CacheProps.history_of _ _ _ _ _ Q) as (s&R&_&RQ&A).
  assert (I : entry_name_ok "f") by (repeat split; discriminate).
  set (sv := Services (fun _ => Panic) (fun _ _ => Ok (Some b)) (fun _ _ _ => Panic) (fun _ _ => None)).
  destruct (C123_get (fun _ => "") sv ("/folders/f/" ++ pair_slug) "" (RenderableOf "f" pair_slug)) as (x&E&p&->&ST&BD).
  { now apply (network_tidy "f"). }
  { now apply ad_renderable; auto using entry_part. }
  exists (fun _ _ => None), s, p. split.
  { exists false, true. split; auto. cbn [map fst] in RQ. apply (one_request s pair_slug); auto; apply SE. }
  split; auto. split; auto. split; auto. split; [|split; auto].
  exists sv. split; [reflexivity|]. split; [now symmetry|]. intros q (_&C).
  assert (q = CacheModel.RRender "f" pair_slug) as -> by (vm_compute in C; exact C). apply A. left. reflexivity.
Qed.
Lemma asked_once d o h b : d_file d "/wd/folders/f/_" = Some "/wd/folders/f/_" -> o_units o = Ok [] ->
  loaded d small_dir "x.xml" false ex_pf plain_order ex_tokens (Ok []) h ->
  returned_renderable (out (world_with d o)) h pair_slug (Ok (Some b)) ->
  exists files s p, history (world_with d o) s /\ entry_name_ok "f" /\ entry_name_ok pair_slug /\ pair_slug <> "facts" /\
    exchanged (fun _ => "") files s "GET" ("/folders/f/" ++ pair_slug) "" (Answer (Some p)) /\ status p = 200 /\ body p = b.
Proof. intros FD UN L. apply asked_for; auto. now rewrite UN. Qed.
(** The hypotheses of the theorems are met: networks are asked for and sent. *)
Example C129_served_example : exists files s p, history (world_with halves_disk halves_outside) s /\ entry_name_ok "f" /\ entry_name_ok pair_slug /\ pair_slug <> "facts" /\
  exchanged (fun _ => "") files s "GET" ("/folders/f/" ++ pair_slug) "" (Answer (Some p)) /\ status p = 200 /\ body p <> "" /\
  entry_at halves_disk small_dir halves_root "x.xml" "x.xml" /\ plain_books halves_disk small_dir halves_root.
Proof.
  destruct C129_example as (L&PB&_&NN&_&b&M).
  destruct (C129_presentation_partial _ _ _ _ _ _ _ _ _ plain_orders x_supported L) as (file&root&EA&K).
  assert (root = halves_root) as -> by (eapply entry_root; [exact halves_entry|exact EA]).
  destruct (K PB halves_outside pair_slug b NN M) as (e&r&v&_&[V _]&_). apply json_nonempty in V.
  assert (B : returned_renderable (out (world_with halves_disk halves_outside)) halves_report pair_slug (Ok (Some b))) by (inversion M; assumption).
  destruct (asked_once halves_disk halves_outside halves_report b eq_refl eq_refl L B) as (files&s&p&A1&A2&A3&A4&A5&A6&<-).
  exists files, s, p. auto 12 using halves_entry.
Qed.
Example C136_served_example : exists files s p, history (world_with cubes_disk cubes_outside) s /\ entry_name_ok "f" /\ entry_name_ok pair_slug /\ pair_slug <> "facts" /\
  exchanged (fun _ => "") files s "GET" ("/folders/f/" ++ pair_slug) "" (Answer (Some p)) /\ status p = 200 /\ body p <> "" /\
  entry_at cubes_disk small_dir cubes_root "x.xml" "x.xml" /\ plain_books cubes_disk small_dir cubes_root /\ plain_definitions cubes_disk small_dir cubes_root.
Proof.
  destruct C136_example as (L&PB&PD&NN&(b&M)&_).
  destruct (C136_links_partial _ _ _ _ _ _ _ _ _ plain_orders x_supported L) as (file&root&EA&K).
  assert (root = cubes_root) as -> by (eapply entry_root; [exact cubes_entry|exact EA]).
  destruct (K PB PD cubes_outside pair_slug b M) as (e&r&v&_&[V _]&_). apply json_nonempty in V.
  assert (B : returned_renderable (out (world_with cubes_disk cubes_outside)) cubes_report pair_slug (Ok (Some b))) by (inversion M; assumption).
  destruct (asked_once cubes_disk cubes_outside cubes_report b eq_refl eq_refl L B) as (files&s&p&A1&A2&A3&A4&A5&A6&<-).
  exists files, s, p. auto 12 using cubes_entry.
Qed.
Example C137_served_example : exists files s p, history (world_with noted_disk noted_outside) s /\ entry_name_ok "f" /\ entry_name_ok pair_slug /\ pair_slug <> "facts" /\
  exchanged (fun _ => "") files s "GET" ("/folders/f/" ++ pair_slug) "" (Answer (Some p)) /\ status p = 200 /\ body p <> "" /\
  entry_at noted_disk small_dir noted_root "x.xml" "x.xml" /\ well_written noted_disk small_dir noted_root /\
  own_links noted_root "footnoteLink" ["footnote"; "loc"; "footnoteArc"] /\ faithful_tree (o_tree noted_outside) /\
  (forall links facts, links_written noted_root links -> tidy links facts).
Proof.
  destruct C137_example as (L&WW&OL&_&FT&TD&_&(b&M)&_).
  destruct (C137_members_partial _ _ _ _ _ _ _ _ _ x_supported L) as (file&root&EA&K).
  assert (root = noted_root) as -> by (eapply entry_root; [exact noted_entry|exact EA]).
  destruct (K WW) as (facts&contexts&q&_&_&_&K'). destruct (K' noted_outside pair_slug b eq_refl eq_refl M) as (e&r&v&_&[V _]&_). apply json_nonempty in V.
  assert (B : returned_renderable (out (world_with noted_disk noted_outside)) noted_report pair_slug (Ok (Some b))) by (inversion M; assumption).
  destruct (asked_once noted_disk noted_outside noted_report b eq_refl eq_refl L B) as (files&s&p&A1&A2&A3&A4&A5&A6&<-).
  exists files, s, p. do 6 (split; [assumption|]). split; [exact V|]. split; [exact noted_entry|]. auto.
Qed.
