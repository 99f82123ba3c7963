(** * MissedProps: what C137 and C138 do not say fails (C137_refuted, C138_refuted) *)
From Coq Require Import String List Bool Arith Lia Permutation.
From Verif Require Import GoBase GoSpec GoFacts AttrModel AttrSpec AttrProofs SchemaModel SchemaSpec SchemaProofs SchemaProps
  LinkbaseModel LinkbaseSpec LinkbaseProofs LinkbaseProps InstanceModel InstanceSpec InstanceProofs InstanceProps
  HydrateModel HydrateSpec HydrateProofs HydrateProps LabelModel LabelSpec LabelProofs LabelProps PeriodModel PeriodSpec PeriodProofs PeriodProps
  FactModel FactSpec FactProofs FactProps GridModel GridSpec GridProofs GridProps CalcModel CalcSpec CalcProofs CalcProps DefModel DefSpec DefProofs DefProps
  RenderModel RenderSpec RenderProofs RenderProps
  DiscoverModel DiscoverSpec DiscoverProofs DiscoverProps XmlModel XmlSpec XmlProofs XmlProps LoadModel LoadSpec LoadProofs LoadProps
  CatalogModel CatalogSpec CatalogProofs CatalogProps ReportModel ResponseModel ResponseSpec ResponseProofs ResponseProps EndToEndSpec EndToEndProps ReportSpec
  ReportProofs ReportProps ColumnSpec ColumnProofs ColumnProps.
Import ListNotations.
Local Open Scope string_scope.

(** *** Folders like that of C137_example; the context of the one has an explicit member and a typed member of two elements,
    one inside the other, that of the other two typed members of one element each. The fact is linked to two footnotes, in
    two footnote links. *)
Definition leaf (n s : string) : tree := XmlElem (XName "urn:a" n) [] s [txt s].
Definition typed_tree (dim inner : string) (k : tree) : tree := XmlElem (XName xbrldi "typedMember") [pa "dimension" dim] inner [k].
Definition context_with (ms : list tree) : tree :=
  xi "context" [pa "id" "m"]
    [xi "entity" [] [xi "identifier" [pa "scheme" "urn:s"] [txt "0"]; xi "segment" [] ms]; xi "period" [] [xi "instant" [] [txt "2020-12-31"]]].
Definition nested_members : list tree :=
  [xd "explicitMember" [pa "dimension" "a:D"] [txt "a:M"];
   typed_tree "a:E" "<t:A><t:B>v</t:B></t:A>" (XmlElem (XName "urn:a" "A") [] "<t:B>v</t:B>" [leaf "B" "v"])].
Definition twin_members : list tree := [typed_tree "a:E" "<t:A>v</t:A>" (leaf "A" "v"); typed_tree "a:F" "<t:B>w</t:B>" (leaf "B" "w")].
Definition miss_tokens (s : string) : list token :=
  let one n v := [TokStart (XName "t" n); TokChar v; TokEnd (XName "t" n)] in
  if String.eqb s "<t:A>v</t:A>" then one "A" "v" else
  if String.eqb s "<t:B>w</t:B>" then one "B" "w" else
  if String.eqb s "<t:A><t:B>v</t:B></t:A>" then ([TokStart (XName "t" "A")] ++ one "B" "v" ++ [TokEnd (XName "t" "A")])%list else [].
Definition note_link (label id text : string) : tree :=
  lk "footnoteLink" [xl "type" "extended"; xl "role" "http://www.xbrl.org/2003/role/link"]
  [lk "loc" [xl "type" "locator"; xl "href" "#f2"; xl "label" label] []; a_footnote link_ns id text;
   lk "footnoteArc" [xl "type" "arc"; xl "arcrole" "http://www.xbrl.org/2003/arcrole/fact-footnote"; xl "from" label; xl "to" id] []].
Definition miss_root (ms : list tree) : tree := xi "xbrl" [XAttr (XName "xmlns" "a") "urn:a"; XAttr (XName "xmlns" "t") "urn:a"]
  [schema_ref_to "a.xsd"; context_with ms; fact_in "m" "f2" "two"; note_link "l2" "n1" "see below"; note_link "l2" "n2" "see above"].
Definition miss_names := ["R"; "A"; "B"; "D"; "M"; "E"; "F"].
Definition miss_schema : tree := schema_tree "urn:a"
  (xs "annotation" [] [xs "appinfo" [] [linkbase_ref_to "presentation" "pre.xml"; a_role "r" [lk "definition" [] [txt "010 - Cover"]]]] ::
   map concept_tree miss_names).
Definition miss_disk (ms : list tree) : disk := small_disk [(in_dir "x.xml", miss_root ms); (in_dir "a.xsd", miss_schema); (in_dir "pre.xml", pair_links)].
Definition miss_end (ms : list tree) : state := go_on (files_of (miss_disk ms)) small_dir 20
  (schema_ref (files_of (miss_disk ms)) small_dir (first_folder (files_of (miss_disk ms)) small_dir "x.xml") (instance_struct (miss_root ms))).
Definition miss_folder (ms : list tree) : folder := DiscoverModel.finish "x.xml" (instance_struct (miss_root ms)) (fst (miss_end ms)).
Definition miss_loads (ms : list tree) := hydrate ex_pf plain_order (d_url (miss_disk ms)) (global_schema_file (miss_disk ms)) miss_tokens (Ok []) (Ok None) (miss_folder ms).
Definition miss_report (ms : list tree) : hydratable := match miss_loads ms with Ok h => h | _ => Hydratable (miss_folder ms) [] None [] [] [] [] [] [] end.
Definition miss_outside (ms : list tree) : outside :=
  Outside (d_url (miss_disk ms)) (global_schema_file (miss_disk ms)) (Ok []) (Ok []) sample_tree (fun _ => []) (fun _ _ _ => None) (fun _ => None) (fun _ => "") (fun _ => None).
Definition of_interest (ms : list tree) : Prop := ms = nested_members \/ ms = twin_members.
Lemma miss_entry ms : entry_at (miss_disk ms) small_dir (miss_root ms) "x.xml" "x.xml".
Proof. apply small_entry_at; [reflexivity|do 4 eexists; reflexivity]. Qed.
Lemma miss_loaded ms : of_interest ms -> loaded (miss_disk ms) small_dir "x.xml" false ex_pf plain_order miss_tokens (Ok []) (miss_report ms).
Proof.
  intro OI. exists (miss_folder ms), (Ok None).
  split; [|split; [destruct OI as [-> | ->]; vm_compute; constructor|destruct OI as [-> | ->]; vm_compute; reflexivity]].
  assert (EI : entry_instance (files_of (miss_disk ms)) small_dir "x.xml" "x.xml" (instance_struct (miss_root ms))) by (apply entry_iff; eauto using miss_entry).
  apply (discover_iff _ _ _ _ _ _ _ EI). exists (miss_end ms). split; [apply go_on_runs; constructor|].
  split; [destruct OI as [-> | ->]; vm_compute; repeat constructor|reflexivity].
Qed.
Lemma miss_followed ms x t : followed_at (miss_disk ms) small_dir (miss_root ms) x t -> x = "a.xsd" /\ t = miss_schema.
Proof.
  intro F. assert (T : t = miss_schema).
  { apply followed_at_local in F as [_ L]. apply small_document in L as [[E|[E|[E|[]]]] N]; injection E as _ <-; auto; destruct N as (?&?&?&?&N); discriminate N. }
  split; auto. clear T. destruct F as [h t ns R _ _|h0 g h t ns G R _ _|h0 g h t ns G R _].
  - destruct R as (y&Hy&(?&?&?&Ny)&Q). simpl in Hy. repeat destruct Hy as [<-|Hy]; try contradiction; try discriminate Ny.
    apply LinkbaseProofs.req_iff in Q. now injection Q.
  - exfalso. apply followed_at_local in G as [_ L]. apply small_document in L as [[E|[E|[E|[]]]] N]; injection E as _ <-; try (destruct N as (?&?&?&?&N); discriminate N).
    destruct R as (y&Hy&(?&?&?&Ny)&Q). simpl in Hy. repeat destruct Hy as [<-|Hy]; try contradiction; discriminate Ny.
  - exfalso. apply followed_at_local in G as [_ L]. apply small_document in L as [[E|[E|[E|[]]]] N]; injection E as _ <-; try (destruct N as (?&?&?&?&N); discriminate N).
    destruct R as (y&Hy&(?&?&?&Ny)&Q). simpl in Hy. repeat destruct Hy as [<-|Hy]; try contradiction; discriminate Ny.
Qed.
Lemma miss_known ms x t : known (miss_disk ms) small_dir (miss_root ms) x t -> x = "a.xsd" /\ t = miss_schema.
Proof. intros [F|(_&data&K&_)]; [now apply miss_followed in F|discriminate K]. Qed.
Lemma miss_claims ms ns x : claims_at (miss_disk ms) small_dir (miss_root ms) ns x -> x = "a.xsd".
Proof.
  intros [h t n R L T|h0 g h t n G R L T|h0 g h n G R].
  - apply (miss_followed ms h t). eapply fat_ref; eauto.
  - apply (miss_followed ms h t). eapply fat_include; eauto.
  - exfalso. apply miss_followed in G as [_ ->].
    destruct R as (y&Hy&(?&?&?&Ny)&Q). simpl in Hy. repeat destruct Hy as [<-|Hy]; try contradiction; discriminate Ny.
Qed.
Lemma miss_plain : plain_declarations miss_schema.
Proof. prove_plain. Qed.
Lemma miss_image cs : image_of (concept_at miss_schema "a.xsd") (kids miss_schema) cs -> cs = map pair_concept miss_names.
Proof.
  intro I. apply concepts_of_iff in I; [|apply miss_plain].
  assert (E : hydrate_concepts (schema_struct miss_schema) "a.xsd" = map pair_concept miss_names) by (vm_compute; reflexivity).
  rewrite <- E. eapply image_of_fun; [|exact I|apply hydrate_concepts_image]. intros x y y' H H'. eapply declares_concept_fun; eauto.
Qed.
Lemma miss_written ms : of_interest ms -> well_written (miss_disk ms) small_dir (miss_root ms).
Proof.
  intro OI. split; [|split; [|split; [|split; [|split]]]].
  - intros x t K. apply miss_known in K as [_ ->]. apply miss_plain.
  - intros x t cs K I. apply miss_known in K as [-> ->]. apply miss_image in I. subst cs. split.
    + apply has_char_false_iff. reflexivity.
    + repeat constructor; simpl; intuition discriminate.
  - intros x ns l _ _ h h' C C'. apply miss_claims in C, C'. congruence.
  - destruct OI as [-> | ->]; prove_names.
  - destruct OI as [-> | ->]; prove_decls.
  - destruct OI as [-> | ->]; prove_texts.
Qed.
Lemma miss_own ms : own_links (miss_root ms) "footnoteLink" ["footnote"; "loc"; "footnoteArc"].
Proof.
  intros x s Hx (a&i&ks&E). simpl in Hx. repeat destruct Hx as [<-|Hx]; try contradiction; try discriminate E; (injection E; intros; subst; split; auto;
  intros y l s' Hy Hl (a&i&ks&E'); simpl in Hy; repeat destruct Hy as [<-|Hy]; try contradiction; try discriminate E'; now injection E').
Qed.

Ltac fields := cbn; repeat constructor; simpl; intuition congruence.
Lemma own_p_value w h slug e r name pg rs ls :
  find_slug slug (sorted_entities (own_insts h)) (sorted_relationship_sets (map snd (hSchemas h))) = Some (e, r) ->
  entity_query (o_names w) (eScheme e) (eChar e) = Ok name ->
  own_p w h (stringify e) (rsRole r) = Ok (pg, rs, ls) -> own_d w h (stringify e) (rsRole r) <> Panic -> own_c w h (stringify e) (rsRole r) <> Panic ->
  exists bytes v, marshalled_renderable w h slug (Ok (Some bytes)) /\ reads_as bytes v /\
    the_member v "Subject" (fun u => the_member u "Entity" (entity_value e)) /\
    the_member v "PGrid" (fun u => the_member u "IndentedLabels" (list_of (row_value "Indentation") (pgLabels pg)) /\
      the_member u "VoidQuadrant" (list_of dimension_value (pgVoid pg)) /\
      the_member u "Footnotes" (match pgFootnoteGrid pg with [] => null | _ => list_of shows (pgFootnotes pg) end)).
Proof.
  intros F Q P D C.
  destruct (some_end (own_p w h (stringify e) (rsRole r)) (own_d w h (stringify e) (rsRole r)) (own_c w h (stringify e) (rsRole r))) as (conf&R&DN).
  pose proof (rr_done w h slug _ _ e r _ _ _ conf (visited_own _) (visited_own _) F (own_p_grids w h _ _) (own_d_grids w h _ _) (own_c_grids w h _ _)
    ltac:(rewrite P; discriminate) D C R DN) as M. apply mr_returned in M.
  unfold marshal_renderable in M. unfold own_insts in F. rewrite F, Q in M. cbn [renderable_bytes bind rnSet] in M.
  unfold rendered in M. match type of M with context [Renderable r (Subject name e) (?g, ?a, ?b)] =>
    destruct (C119_renderable (ResponseModel.linked (rsRole r) (map snd (hCalculation h))) r (Subject name e) g a b) as (v&J&V) end.
  eexists. exists v. split; [exact M|]. split; [exact J|]. split.
  { eapply the_member_impl; [|eapply (the_member_of _ _ "Subject"); [exact V|fields|right; left; reflexivity]].
    intros u U. eapply (the_member_of _ _ "Entity"); [exact U|fields|right; left; reflexivity]. }
  eapply the_member_impl; [|eapply (the_member_of _ _ "PGrid"); [exact V|fields|do 4 right; left; reflexivity]].
  intros u U. cbn [gdP] in U. rewrite P in U.
  split; [eapply (the_member_of _ _ "IndentedLabels"); [exact U|fields|left; reflexivity]|].
  split; [eapply (the_member_of _ _ "VoidQuadrant"); [exact U|fields|do 3 right; left; reflexivity]|].
  eapply (the_member_of _ _ "Footnotes"); [exact U|fields|do 6 right; left; reflexivity].
Qed.

(** what can be said of an answer about one of these folders *)
Lemma miss_answer ms pg rs ls : of_interest ms -> own_p (miss_outside ms) (miss_report ms) (stringify pair_entity) (rsRole pair_set) = Ok (pg, rs, ls) ->
  exists i q bytes v, hInstances (miss_report ms) = [("x.xml", i)] /\ understands (miss_disk ms) small_dir (miss_root ms) q /\
    facts_written (miss_disk ms) small_dir (miss_root ms) (iFacts i) /\
    contexts_written (miss_root ms) q (content_of q miss_tokens (attributes (miss_root ms))) (iContexts i) /\
    links_written (miss_root ms) (iFootnoteLinks i) /\
    (forall fa, In fa (iFacts i) -> exists k, reports (miss_disk ms) small_dir (miss_root ms) fa k /\ concept_for (miss_outside ms) (miss_report ms) (fHref fa) = Some k) /\
    marshalled_renderable (miss_outside ms) (miss_report ms) pair_slug (Ok (Some bytes)) /\ reads_as bytes v /\
    the_member v "Subject" (fun u => the_member u "Entity" (entity_value pair_entity)) /\
    the_member v "PGrid" (fun u => the_member u "IndentedLabels" (list_of (row_value "Indentation") (pgLabels pg)) /\
      the_member u "VoidQuadrant" (list_of dimension_value (pgVoid pg)) /\
      the_member u "Footnotes" (match pgFootnoteGrid pg with [] => null | _ => list_of shows (pgFootnotes pg) end)).
Proof.
  intros OI OP. pose proof (miss_loaded ms OI) as L.
  destruct (report_read _ _ _ _ _ _ _ _ _ x_supported L) as (file&root&i&EA&HI&R).
  assert (X : forall file root, entry_at (miss_disk ms) small_dir root "x.xml" file -> file = "x.xml" /\ root = miss_root ms).
  { intros f0 r0 ([[N _]|[_ ->]]&DO&_).
    - exfalso. apply inline_iff in N. destruct N as [N|N]; discriminate N.
    - destruct (miss_entry ms) as (_&DO'&_). split; auto. eapply document_fun; eauto. }
  destruct (X _ _ EA) as [-> ->].
  destruct (C116_instance_partial _ _ _ _ _ _ _ _ _ x_supported L) as (file'&root'&i'&EA'&HI'&FN&_).
  rewrite HI in HI'. injection HI' as <- <-. destruct (X _ _ EA') as [_ ->].
  destruct (R (miss_written ms OI)) as (q&Q&FW&CW&K). destruct (K (miss_outside ms) eq_refl eq_refl) as [K1 K2].
  destruct (own_p_value (miss_outside ms) (miss_report ms) pair_slug pair_entity pair_set "urn:s/0" pg rs ls) as (bytes&v&M&J&S&P);
    [destruct OI as [-> | ->]; vm_compute; reflexivity|vm_compute; reflexivity|exact OP|destruct OI as [-> | ->]; vm_compute; discriminate|
     destruct OI as [-> | ->]; vm_compute; discriminate|].
  exists i, q, bytes, v. split; [exact HI|]. split; [exact Q|]. split; [exact FW|]. split; [exact CW|]. split; [exact (FN (miss_own ms))|].
  split; [|split; [exact M|split; [exact J|split; [exact S|exact P]]]].
  intros fa Hf. destruct (K1 fa Hf) as (k&Hk). exists k. split; [exact Hk|exact (K2 _ _ Hk)].
Qed.

(** the answer is about the context's entity, and the concept of the fact is among the rows of the presentation *)
Definition in_view (v : value) (c : context) (href : string) : Prop :=
  has v "Subject" (fun u => has u "Entity" (entity_value (Entity (ctxScheme c) (ctxIdentifier c)))) /\
  has v "PGrid" (fun u => has u "IndentedLabels" (fun l => exists i, the_item l i (href_shown href))).
Lemma in_view_of v pg c : the_member v "Subject" (fun u => the_member u "Entity" (entity_value pair_entity)) ->
  the_member v "PGrid" (fun u => the_member u "IndentedLabels" (list_of (row_value "Indentation") (pgLabels pg))) ->
  map ilHref (pgLabels pg) = ["a.xsd#id_R"; "a.xsd#id_A"] -> ctxScheme c = "urn:s" -> ctxIdentifier c = "0" -> in_view v c "a.xsd#id_A".
Proof.
  intros S P E E1 E2. split.
  - rewrite E1, E2. apply the_member_has. eapply the_member_impl; [|exact S]. intros x. apply the_member_has.
  - apply the_member_has. eapply the_member_impl; [|exact P]. intros u X. apply the_member_has. eapply the_member_impl; [|exact X].
    intros l LL. apply (list_of_hrefs ilHref) in LL; [|intros a b; apply row_href; discriminate]. rewrite E in LL.
    destruct LL as (vs&->&F). inversion F as [|? u1 ? vs1 H1 F1]; subst. inversion F1 as [|? u2 ? vs2 H2 F2]; subst.
    exists 1, (u1 :: u2 :: vs2), u2. auto.
Qed.

(** C137. Refuted: an explicit member of a column has no row, if the column has also a typed member that is not simple. *)
Theorem C137_refuted :
  ~ (forall d dir name images pf sh tokens utr h file root, supported name -> loaded d dir name images pf sh tokens utr h ->
       entry_at d dir root name file -> well_written d dir root ->
       forall q facts contexts, understands d dir root q -> facts_written d dir root facts ->
         contexts_written root q (content_of q tokens (attributes root)) contexts ->
       forall w slug bytes v, o_url w = d_url d -> o_schema w = global_schema_file d -> faithful_tree (o_tree w) ->
         marshalled_renderable w h slug (Ok (Some bytes)) -> reads_as bytes v ->
       forall fa k c e, In fa facts -> reports d dir root fa k -> cAbstract k = false ->
         first_such (fun c => ctxID c = fContextRef fa) contexts c -> in_view v c (fHref fa) -> In e (explicit_of c) ->
         exists n, the_member v "PGrid" (fun u => the_member u "VoidQuadrant" (fun l => the_item l n (dimension_shown (emDimHref e, None))))).
Proof.
  intro H. assert (OI : of_interest nested_members) by now left.
  assert (PP : exists pg rs ls, own_p (miss_outside nested_members) (miss_report nested_members) (stringify pair_entity) (rsRole pair_set) = Ok (pg, rs, ls) /\
    map ilHref (pgLabels pg) = ["a.xsd#id_R"; "a.xsd#id_A"] /\ pgVoid pg = []) by (do 3 eexists; split; [vm_compute; reflexivity|split; reflexivity]).
  destruct PP as (pg&rs&ls&OP&PL&PV).
  destruct (miss_answer _ _ _ _ OI OP) as (i&q&bytes&v&HI&UN&FW&CW&_&K&M&J&S&P).
  assert (II : exists c, iContexts i = [c] /\ ctxID c = "m" /\ ctxScheme c = "urn:s" /\ ctxIdentifier c = "0" /\
      explicit_of c = [ExplicitMember "a.xsd#id_D" "a:D" "a.xsd#id_M" "a:M"] /\
    iFacts i = [Fact "a.xsd#id_A" "f2" "m" "" (-2147483647) false "two"]).
  { pose proof HI as Y. clear -Y. vm_compute in Y. injection Y as <-. eexists. repeat split. }
  destruct II as (c&EC&E1&E2&E3&EX&EF).
  destruct (K (Fact "a.xsd#id_A" "f2" "m" "" (-2147483647) false "two")) as (k&RP&CF); [rewrite EF; now left|].
  vm_compute in CF. injection CF as <-.
  destruct (H _ _ _ _ _ _ _ _ _ _ _ x_supported (miss_loaded _ OI) (miss_entry _) (miss_written _ OI) q _ _ UN FW CW (miss_outside nested_members) pair_slug bytes v
    eq_refl eq_refl sample_tree_faithful M J _ _ c (ExplicitMember "a.xsd#id_D" "a:D" "a.xsd#id_M" "a:M") ltac:(rewrite EF; left; reflexivity) RP eq_refl) as (n&X).
  - exists [], []. rewrite EC. split; [reflexivity|]. split; [exact E1|]. intros ? [].
  - eapply in_view_of; eauto. eapply the_member_impl; [|exact P]. intros u U. apply U.
  - rewrite EX. now left.
  - destruct P as (u&(_&(l&(vs&->&F)&VQ)&_)&PU). destruct X as (u'&(l'&(its&x&->&N&_)&VQ')&PU').
    assert (u' = u) as -> by (apply PU, PU'; reflexivity). assert (JArr its = JArr vs) as [= ->] by (apply VQ, VQ'; reflexivity).
    rewrite PV in F. inversion F. subst vs. destruct n; discriminate N.
Qed.
Print Assumptions C137_refuted.

(** plain ASCII text *)
Lemma shown_same s t v : JsonSpec.text s -> JsonSpec.text t -> shows s v -> shows t v -> s = t.
Proof. intros Ts Tt (a&E&_&A) (b&E'&_&B). rewrite E in E'. injection E' as ->. now rewrite <- (A Ts), <- (B Tt). Qed.

(** ... and a typed member has no row with its dimension, if the column has typed members of two dimensions. *)
Theorem C137_typed_refuted :
  ~ (forall d dir name images pf sh tokens utr h file root, supported name -> loaded d dir name images pf sh tokens utr h ->
       entry_at d dir root name file -> well_written d dir root ->
       forall q facts contexts, understands d dir root q -> facts_written d dir root facts ->
         contexts_written root q (content_of q tokens (attributes root)) contexts ->
       forall w slug bytes v, o_url w = d_url d -> o_schema w = global_schema_file d -> faithful_tree (o_tree w) ->
         (forall c t, In c contexts -> In t (typed_of c) -> simple (o_tree w) t) ->
         marshalled_renderable w h slug (Ok (Some bytes)) -> reads_as bytes v ->
       forall fa k c dim domain text, In fa facts -> reports d dir root fa k -> cAbstract k = false ->
         first_such (fun c => ctxID c = fContextRef fa) contexts c -> in_view v c (fHref fa) -> gives c dim domain text ->
         exists n, the_member v "PGrid" (fun u => the_member u "VoidQuadrant" (fun l => the_item l n (dimension_shown (dim, Some domain))))).
Proof.
  intro H. assert (OI : of_interest twin_members) by now right.
  assert (PP : exists pg rs ls, own_p (miss_outside twin_members) (miss_report twin_members) (stringify pair_entity) (rsRole pair_set) = Ok (pg, rs, ls) /\
    map ilHref (pgLabels pg) = ["a.xsd#id_R"; "a.xsd#id_A"] /\
    map (fun x => lbHref (vcDimension x)) (pgVoid pg) = repeat "a.xsd#id_E" 4) by (do 3 eexists; split; [vm_compute; reflexivity|split; reflexivity]).
  destruct PP as (pg&rs&ls&OP&PL&PV).
  destruct (miss_answer _ _ _ _ OI OP) as (i&q&bytes&v&HI&UN&FW&CW&_&K&M&J&S&P).
  assert (II : exists c, iContexts i = [c] /\ ctxID c = "m" /\ ctxScheme c = "urn:s" /\ ctxIdentifier c = "0" /\
      typed_of c = [TypedMember "a.xsd#id_E" "a:E" "" [("a.xsd#id_A", "v")] [TArc (f64_of_nat 1) "a.xsd#id_E" "a.xsd#id_A"];
                    TypedMember "a.xsd#id_F" "a:F" "" [("a.xsd#id_B", "w")] [TArc (f64_of_nat 1) "a.xsd#id_F" "a.xsd#id_B"]] /\
    iFacts i = [Fact "a.xsd#id_A" "f2" "m" "" (-2147483647) false "two"]).
  { pose proof HI as Y. clear -Y. vm_compute in Y. injection Y as <-. eexists. repeat split. }
  destruct II as (c&EC&E1&E2&E3&ET&EF).
  destruct (K (Fact "a.xsd#id_A" "f2" "m" "" (-2147483647) false "two")) as (k&RP&CF); [rewrite EF; now left|].
  vm_compute in CF. injection CF as <-.
  destruct (H _ _ _ _ _ _ _ _ _ _ _ x_supported (miss_loaded _ OI) (miss_entry _) (miss_written _ OI) q _ _ UN FW CW (miss_outside twin_members) pair_slug bytes v
    eq_refl eq_refl sample_tree_faithful) with (fa := Fact "a.xsd#id_A" "f2" "m" "" (-2147483647) false "two") (k := pair_concept "A") (c := c)
    (dim := "a.xsd#id_F") (domain := "a.xsd#id_B") (text := "w") as (n&X).
  - rewrite EC. intros c0 t [<-|[]]. rewrite ET. intros [<-|[<-|[]]]; do 6 eexists; (split; [reflexivity|split; [reflexivity|split; [discriminate|split; [discriminate|reflexivity]]]]).
  - exact M.
  - exact J.
  - rewrite EF. now left.
  - exact RP.
  - reflexivity.
  - exists [], []. rewrite EC. split; [reflexivity|]. split; [exact E1|]. intros ? [].
  - eapply in_view_of; eauto. eapply the_member_impl; [|exact P]. intros u U. apply U.
  - eexists. split; [rewrite ET; right; left; reflexivity|]. split; [reflexivity|now left].
  - destruct P as (u&(_&(l&(vs&->&F)&VQ)&_)&PU). destruct X as (u'&(l'&(its&x&->&N&(DS&_))&VQ')&PU').
    assert (u' = u) as -> by (apply PU, PU'; reflexivity). assert (JArr its = JArr vs) as [= ->] by (apply VQ, VQ'; reflexivity).
    apply nth_error_In in N. clear -F N DS PV.
    assert (X : exists y, In y (pgVoid pg) /\ dimension_value y x).
    { clear PV DS. induction F as [|y z l vs' Hy F IH]; [destruct N|]. destruct N as [<-|N]; [exists y; split; [now left|exact Hy]|].
      destruct (IH N) as (y'&I&D). exists y'. split; [now right|exact D]. }
    destruct X as (y&I&D). apply (in_map (fun x => lbHref (vcDimension x))) in I. rewrite PV in I. apply repeat_spec in I.
    assert (DE : the_member x "Dimension" (concept_with_labels (vcDimension y))).
    { unfold dimension_value in D. destruct (vcTypedDomain y); (eapply (the_member_of _ _ "Dimension"); [exact D|fields|do 2 right; left; reflexivity]). }
    destruct DE as (z&CL&Z). destruct DS as (z'&HS&Z'). assert (z' = z) as -> by (apply Z, Z'; reflexivity).
    assert (HE : href_shown "a.xsd#id_E" z).
    { rewrite <- I. eapply (the_member_of _ _ "Href"); [exact CL|fields|left; reflexivity]. }
    destruct HE as (h1&S1&H1), HS as (h2&S2&H2). assert (h2 = h1) as -> by (apply H1, H2; reflexivity).
    pose proof (shown_same _ _ _ (JsonProofs.san_text "a.xsd#id_E") (JsonProofs.san_text "a.xsd#id_F") S1 S2) as X. discriminate X.
Qed.
Print Assumptions C137_typed_refuted.

(** C138. Refuted: of the footnotes that two footnote links give a fact that is shown, that of the second link is missing. *)
Theorem C138_refuted :
  ~ (forall d dir name images pf sh tokens utr h file root, supported name -> loaded d dir name images pf sh tokens utr h ->
       entry_at d dir root name file -> well_written d dir root -> own_links root "footnoteLink" ["footnote"; "loc"; "footnoteArc"] ->
       forall q facts contexts links, understands d dir root q -> facts_written d dir root facts ->
         contexts_written root q (content_of q tokens (attributes root)) contexts -> links_written root links ->
       forall w slug bytes v, o_url w = d_url d -> o_schema w = global_schema_file d -> faithful_tree (o_tree w) ->
         marshalled_renderable w h slug (Ok (Some bytes)) -> reads_as bytes v ->
       forall fa k c f, reports d dir root fa k -> cAbstract k = false ->
         first_such (fun c => ctxID c = fContextRef fa) contexts c -> in_view v c (fHref fa) ->
         first_such (is_fact_of (fHref fa) (ctxID c)) facts fa -> annotates links fa f ->
         exists n, the_member v "PGrid" (fun u => the_member u "Footnotes" (fun l => the_item l n (shows (fnHtml f))))).
Proof.
  intro H. assert (OI : of_interest nested_members) by now left.
  assert (PP : exists pg rs ls, own_p (miss_outside nested_members) (miss_report nested_members) (stringify pair_entity) (rsRole pair_set) = Ok (pg, rs, ls) /\ map ilHref (pgLabels pg) = ["a.xsd#id_R"; "a.xsd#id_A"] /\ pgFootnoteGrid pg = [[[]]; [[1]]] /\ pgFootnotes pg = ["see below"])
    by (do 3 eexists; split; [vm_compute; reflexivity|repeat split; reflexivity]).
  destruct PP as (pg&rs&ls&OP&PL&PG&PF).
  destruct (miss_answer _ _ _ _ OI OP) as (i&q&bytes&v&HI&UN&FW&CW&LW&K&M&J&S&P).
  assert (II : exists c, iContexts i = [c] /\ ctxID c = "m" /\ ctxScheme c = "urn:s" /\ ctxIdentifier c = "0" /\ iFootnoteLinks i = map (fun x => FootnoteLink "" [Footnote (fst x) (snd x) "en" (fst x)] [Loc "#f2" "l2"]
      [FnArc "l2" (fst x) "http://www.xbrl.org/2003/arcrole/fact-footnote"]) [("n1", "see below"); ("n2", "see above")] /\ iFacts i = [Fact "a.xsd#id_A" "f2" "m" "" (-2147483647) false "two"]).
  { pose proof HI as Y. clear -Y. vm_compute in Y. injection Y as <-. eexists. repeat split. }
  destruct II as (c&EC&E1&E2&E3&EL&EF).
  destruct (K (Fact "a.xsd#id_A" "f2" "m" "" (-2147483647) false "two")) as (k&RP&CF); [rewrite EF; now left|].
  vm_compute in CF. injection CF as <-.
  destruct (H _ _ _ _ _ _ _ _ _ _ _ x_supported (miss_loaded _ OI) (miss_entry _) (miss_written _ OI) (miss_own _) q _ _ _ UN FW CW LW (miss_outside nested_members) pair_slug bytes v
    eq_refl eq_refl sample_tree_faithful M J _ _ c (Footnote "n2" "see above" "en" "n2") RP eq_refl) as (n&X).
  - exists [], []. rewrite EC. split; [reflexivity|]. split; [exact E1|]. intros ? [].
  - eapply in_view_of; eauto. eapply the_member_impl; [|exact P]. intros u U. apply U.
  - exists [], []. rewrite EF. split; [reflexivity|]. split; [split; [reflexivity|symmetry; exact E1]|]. intros ? [].
  - rewrite EL. unfold annotates, InstanceSpec.linked. do 3 eexists. split; [left; reflexivity|]. split; [right; left; reflexivity|].
    split; [left; reflexivity|]. split; [apply label_refers_iff; reflexivity|]. split; [left; reflexivity|reflexivity].
  - destruct P as (u&(_&_&(l&F&VQ))&PU). destruct X as (u'&(l'&(its&x&->&N&SH)&VQ')&PU').
    assert (u' = u) as -> by (apply PU, PU'; reflexivity). assert (JArr its = l) as <- by (apply VQ, VQ'; reflexivity).
    rewrite PG, PF in F. destruct F as (vs&[= ->]&F). inversion F as [|? y ? ? S1 F1]; subst. inversion F1; subst.
    destruct n as [|n]; [|destruct n; discriminate N]. injection N as <-.
    pose proof (shown_same _ _ _ (JsonProofs.san_text "see below") (JsonProofs.san_text "see above") S1 SH) as X. discriminate X.
Qed.
Print Assumptions C138_refuted.
