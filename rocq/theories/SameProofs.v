(** * SameProofs: two loads of one folder have the same entities, roles and document *)
From Verif Require Import GoBase GoSpec GoFacts AttrModel AttrSpec AttrProofs SchemaModel SchemaSpec SchemaProofs SchemaProps
  LinkbaseModel LinkbaseSpec LinkbaseProofs LinkbaseProps InstanceModel InstanceSpec InstanceProofs InstanceProps
  HydrateModel HydrateSpec HydrateProofs HydrateProps LabelModel LabelSpec LabelProofs LabelProps PeriodModel PeriodSpec PeriodProofs PeriodProps
  FactModel FactSpec FactProofs FactProps GridModel GridSpec GridProofs GridProps CalcModel CalcSpec CalcProofs CalcProps DefModel DefSpec DefProofs DefProps
  RenderModel RenderSpec RenderProofs RenderProps ExpressModel ExpressSpec ExpressProofs ExpressProps
  DiscoverModel DiscoverSpec DiscoverProofs DiscoverProps XmlModel XmlSpec XmlProofs XmlProps LoadModel LoadSpec LoadProofs LoadProps
  CatalogModel CatalogSpec CatalogProofs CatalogProps ReportModel.
Local Open Scope string_scope.

(** The entity of a context does not depend on what the names in it mean. *)
Lemma context_entity q q' tokens attrs e o c : hydrate_context q tokens attrs e = Ok (Some c) -> hydrate_context q' tokens attrs e = Ok o ->
  exists c', o = Some c' /\ ctxScheme c' = ctxScheme c /\ ctxIdentifier c' = ctxIdentifier c.
Proof.
  unfold hydrate_context. destruct (negb _); [discriminate|]. destruct (req _ _) as [id|]; [|discriminate].
  destruct (cx_entity e) as [|en ens]; [discriminate|]. destruct (en_identifier en) as [|idt idts]; [discriminate|].
  destruct (String.eqb (etext idt) ""); [discriminate|]. destruct (find_attr (eattrs idt) "scheme") as [a|]; [|discriminate].
  destruct (hydrate_dim_context false q _ _ _) as [s| |]; cbn [bind]; try discriminate.
  destruct (hydrate_dim_context true q _ _ _) as [s2| |]; cbn [bind]; try discriminate.
  destruct (hydrate_dim_context false q' _ _ _) as [s'| |]; cbn [bind]; try discriminate.
  destruct (hydrate_dim_context true q' _ _ _) as [s2'| |]; cbn [bind]; try discriminate.
  destruct (match cx_period e with [] => _ | _ => _ end) as [i [st en']]. intros [= <-] [= <-]. eexists. split; [reflexivity|]. auto.
Qed.
Lemma collect_from {A B} (f g : A -> res (option B)) (R : B -> B -> Prop) l : (forall x y o, f x = Ok (Some y) -> g x = Ok o -> exists z, o = Some z /\ R z y) ->
  forall ys zs, collectM f l = Ok ys -> collectM g l = Ok zs -> forall y, In y ys -> exists z, In z zs /\ R z y.
Proof.
  intro K. induction l as [|x l IH]; intros ys zs; cbn [collectM]; [intros [= <-] _ y []|].
  destruct (f x) as [o| |] eqn:F; cbn [bind]; try discriminate. destruct (collectM f l) as [ys'| |]; cbn [bind]; try discriminate.
  destruct (g x) as [o'| |] eqn:G; cbn [bind]; try discriminate. destruct (collectM g l) as [zs'| |]; cbn [bind]; try discriminate.
  intros [= <-] [= <-] y H. destruct o as [y0|].
  - destruct (K _ _ _ F G) as (z&->&R0). destruct H as [<-|H]; [exists z; split; [now left|auto]|].
    destruct (IH _ _ eq_refl eq_refl y H) as (z'&I&R'). exists z'. split; [now right|auto].
  - destruct (IH _ _ eq_refl eq_refl y H) as (z'&I&R'). exists z'. split; [destruct o'; [now right|auto]|auto].
Qed.
Lemma instance_entities q q' tokens f n i n' i' c : hydrate_instance q tokens (Some f) n = Ok i -> hydrate_instance q' tokens (Some f) n' = Ok i' ->
  In c (iContexts i) -> exists c', In c' (iContexts i') /\ ctxScheme c' = ctxScheme c /\ ctxIdentifier c' = ctxIdentifier c.
Proof.
  unfold hydrate_instance, hydrate_contexts. destruct (negb (nonempty n)); [discriminate|]. destruct (negb (nonempty n')); [discriminate|].
  destruct (collectM (hydrate_context q _ _) _) as [l| |] eqn:C; cbn [bind]; try discriminate. intros [= <-].
  destruct (collectM (hydrate_context q' _ _) _) as [l'| |] eqn:C'; cbn [bind]; try discriminate. intros [= <-]. cbn [iContexts].
  intro H. apply isort_in in H.
  destruct (collect_from _ _ (fun z y => ctxScheme z = ctxScheme y /\ ctxIdentifier z = ctxIdentifier y) _
              (fun x y o => context_entity q q' tokens (if_attrs f) x o y) _ _ C C' c H) as (z&I&R).
  exists z. split; [now apply isort_in|auto].
Qed.

Lemma other_folder files dir name images fd : discover files dir (Ok name) images (Ok fd) -> ~ supported name -> fd = new_folder name None.
Proof.
  intros D N. inversion D as [m E|n o E X H|n o E X H|n E X1 X2 X3 X4]; try injection E as <-; subst; try discriminate; auto; exfalso; apply N.
  - left. now apply inline_iff.
  - right. now apply instance_iff.
Qed.

Section Twice.
  Variables (d : disk) (dir name : string) (images images' : bool) (pf : string -> f64 * bool) (sh sh' : shuffles) (tokens : string -> list token) (utr : res registry).
  Variables h h' : hydratable.
  Hypothesis L : loaded d dir name images pf sh tokens utr h.
  Hypothesis L' : loaded d dir name images' pf sh' tokens utr h'.
  Lemma twice_reported e insts insts' : visited (hInstances h) insts -> visited (hInstances h') insts' -> reported insts e -> reported insts' e.
  Proof.
    intros V V' (i&c&Hi&Hc&N1&N2&E1&E2).
    assert (S : supported name \/ ~ supported name).
    { unfold supported. destruct (string_dec (ext name) ".xhtml"); [left; left; apply inline_iff; auto|]. destruct (string_dec (ext name) ".htm"); [left; left; apply inline_iff; auto|].
      destruct (string_dec (ext name) ".xbrl"); [left; right; apply instance_iff; auto|]. destruct (string_dec (ext name) ".xml"); [left; right; apply instance_iff; auto|].
      right. intros [X|X]; [apply inline_iff in X|apply instance_iff in X]; destruct X; contradiction. }
    assert (Hi' : In i (map snd (hInstances h))) by (eapply Permutation_in; [exact V|exact Hi]).
    destruct S as [S|S].
    - destruct (loaded_parts _ _ _ _ _ _ _ _ _ S L) as (file&root&fd&doc&EA&FI&_&_&_&_&_&_&_&_&_&H).
      destruct (loaded_parts _ _ _ _ _ _ _ _ _ S L') as (file'&root'&fd'&doc'&EA'&FI'&_&_&_&_&_&_&_&_&_&H').
      assert (root' = root) as -> by (eapply entry_root; [exact EA|exact EA']).
      apply C79_complete in H as (_&_&_&_&_&_&HI&_). apply C79_complete in H' as (_&_&_&_&_&_&HI'&_).
      destruct (one_loaded _ _ _ HI _ _ FI) as (j&EJ&HJ). destruct (one_loaded _ _ _ HI' _ _ FI') as (j'&EJ'&HJ').
      rewrite EJ in Hi'. destruct Hi' as [<-|[]]. cbn [snd] in Hc.
      destruct (instance_entities _ _ _ _ _ _ _ _ c HJ HJ' Hc) as (c'&Hc'&F1&F2).
      exists j', c'. split; [|split; auto; split; auto; split; auto; split; congruence].
      eapply Permutation_in; [apply Permutation_sym, V'|]. rewrite EJ'. now left.
    - exfalso. destruct L as (fd&doc&D&_&H). apply C79_complete in H as (_&_&_&_&_&_&[HI _]&_).
      rewrite (other_folder _ _ _ _ _ D S) in HI. cbn in HI. destruct (hInstances h); [destruct Hi'|discriminate HI].
  Qed.
  Lemma twice_declared r schemas schemas' : visited (hSchemas h) schemas -> visited (hSchemas h') schemas' -> declared schemas r -> declared schemas' r.
  Proof.
    intros V V' (s&t&Hs&K).
    assert (S : supported name \/ ~ supported name).
    { unfold supported. destruct (string_dec (ext name) ".xhtml"); [left; left; apply inline_iff; auto|]. destruct (string_dec (ext name) ".htm"); [left; left; apply inline_iff; auto|].
      destruct (string_dec (ext name) ".xbrl"); [left; right; apply instance_iff; auto|]. destruct (string_dec (ext name) ".xml"); [left; right; apply instance_iff; auto|].
      right. intros [X|X]; [apply inline_iff in X|apply instance_iff in X]; destruct X; contradiction. }
    assert (Hs' : In s (map snd (hSchemas h))) by (eapply Permutation_in; [exact V|exact Hs]). apply in_map_iff in Hs' as ([x s']&E&Hs'). cbn in E. subst s'.
    destruct S as [S|S].
    - destruct (loaded_parts _ _ _ _ _ _ _ _ _ S L) as (file&root&fd&doc&EA&FI&SC&_&_&_&_&_&_&_&_&H).
      destruct (loaded_parts _ _ _ _ _ _ _ _ _ S L') as (file'&root'&fd'&doc'&EA'&FI'&SC'&_&_&_&_&_&_&_&_&H').
      assert (root' = root) as -> by (eapply entry_root; [exact EA|exact EA']).
      apply C79_complete in H as (_&HS&_). apply C79_complete in H' as (_&HS'&_).
      apply all_loaded_In in HS as [I1 _]. apply all_loaded_In in HS' as [_ I2].
      destruct (I1 _ _ Hs') as (a&Ha&E1). apply SC in Ha. apply SC' in Ha. destruct (I2 _ _ Ha) as (b&Hb&E2).
      assert (b = s) as -> by congruence. exists s, t. split; auto.
      eapply Permutation_in; [apply Permutation_sym, V'|]. apply in_map_iff. exists (x, s). auto.
    - exfalso. destruct L as (fd&doc&D&_&H). apply C79_complete in H as (_&[HI _]&_).
      rewrite (other_folder _ _ _ _ _ D S) in HI. cbn in HI. destruct (hSchemas h); [destruct Hs'|discriminate HI].
  Qed.
End Twice.
Section Same.
  Variables (d : disk) (dir name : string) (images images' : bool) (pf : string -> f64 * bool) (sh sh' : shuffles) (tokens : string -> list token) (utr : res registry).
  Variables h h' : hydratable.
  Hypothesis L : loaded d dir name images pf sh tokens utr h.
  Hypothesis L' : loaded d dir name images' pf sh' tokens utr h'.
  Lemma same_entities insts insts' : visited (hInstances h) insts -> visited (hInstances h') insts' -> sorted_entities insts = sorted_entities insts'.
  Proof.
    intros V V'. eapply canonical_unique; [apply entities_canonical|]. destruct (entities_canonical insts') as [E S]. split; auto.
    intro x. rewrite E. split; [exact (twice_reported _ _ _ _ _ _ _ _ _ _ _ _ L' L x _ _ V' V)|exact (twice_reported _ _ _ _ _ _ _ _ _ _ _ _ L L' x _ _ V V')].
  Qed.
  Lemma same_roles schemas schemas' : visited (hSchemas h) schemas -> visited (hSchemas h') schemas' -> sorted_relationship_sets schemas = sorted_relationship_sets schemas'.
  Proof.
    intros V V'. eapply canonical_unique; [apply rsets_canonical|]. destruct (rsets_canonical schemas') as [E S]. split; auto.
    intro x. rewrite E. split; [exact (twice_declared _ _ _ _ _ _ _ _ _ _ _ _ L' L x _ _ V' V)|exact (twice_declared _ _ _ _ _ _ _ _ _ _ _ _ L L' x _ _ V V')].
  Qed.
End Same.
