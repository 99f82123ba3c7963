From Coq Require Import Strings.String Strings.Ascii Lists.List Bool Arith Lia.
From Verif Require Import GoBase GoSpec GoFacts AttrModel SchemaModel SchemaSpec SchemaProofs LinkbaseModel LinkbaseSpec
  LinkbaseProofs LabelSpec LabelProofs InstanceModel HydrateModel PathModel DiscoverModel DiscoverSpec.
Import ListNotations.
Open Scope string_scope.

Lemma xattr_is_iff attrs n v u : v <> "" -> (xattr_is attrs n v = Some u <-> xlink attrs n v).
Proof.
  intro Nv. rewrite <- xreq_iff. unfold xattr_is, xreq. destruct u. destruct (find_attr attrs n) as [a|].
  - destruct (String.eqb_spec (nspace (aname a)) XLINK); simpl; [|split; discriminate].
    destruct (String.eqb_spec (avalue a) v) as [->|N]; simpl.
    + destruct (String.eqb_spec v ""); [contradiction|]. tauto.
    + destruct (String.eqb_spec (avalue a) ""); split; try discriminate.
      intro H; injection H; intros; contradiction.
  - split; discriminate.
Qed.

Lemma linkbase_kind_iff role k : linkbase_kind role = Some k <-> role = linkbase_role k.
Proof.
  unfold linkbase_kind. split.
  - destruct (String.eqb_spec role PresentationLinkbaseRef) as [->|]; [intros [= <-]; reflexivity|].
    destruct (String.eqb_spec role DefinitionLinkbaseRef) as [->|]; [intros [= <-]; reflexivity|].
    destruct (String.eqb_spec role CalculationLinkbaseRef) as [->|]; [intros [= <-]; reflexivity|].
    destruct (String.eqb_spec role LabelLinkbaseRef) as [->|]; [intros [= <-]; reflexivity|discriminate].
  - intros ->. now destruct k.
Qed.

Section WithFiles.
  Variable w : files.
  Variable dir : string.
  Notation url := (url_of w).
  Notation sof := (schema_of w dir).
  Notation lof := (linkbase_of w dir).

  Lemma url_false h : is_url w h = false <-> ~ url h.
  Proof. unfold url_of. destruct (is_url w h); split; congruence. Qed.

  (** ** The bodies *)
  Lemma schema_ref_iff e d : schema_ref_body w dir e = d <->
    (exists h f ns, link_element e /\ required (eattrs e) "href" h /\ ~ url h /\ sof h f /\ target_namespace f ns /\
       d = Claim ns h (Load h f)) \/
    ((forall h f ns, link_element e -> required (eattrs e) "href" h -> ~ url h -> sof h f -> ~ target_namespace f ns) /\ d = Stop).
  Proof.
    unfold schema_ref_body, link_element, schema_of, target_namespace.
    destruct (String.eqb_spec (nspace (ename e)) LINK) as [E|E]; cbn [negb].
    2:{ split; [intros <-; right; split; auto; intros; contradiction|intros [(h & f & ns & H & _)|[_ ->]]; [contradiction|auto]]. }
    destruct (req (eattrs e) "href") as [h|] eqn:Eh; cbn [found].
    2:{ assert (N := proj1 (req_None _ _) Eh).
        split; [intros <-; right; split; auto; intros h ? ? _ H; now apply N in H|intros [(h & f & ns & _ & H & _)|[_ ->]]; [now apply N in H|auto]]. }
    assert (Hh := proj1 (req_iff _ _ _) Eh).
    destruct (is_url w h) eqn:Eu.
    { split.
      - intros <-. right. split; auto. intros h' f ns _ H HU. rewrite (required_fun _ _ _ _ H Hh) in HU. now elim HU.
      - intros [(h' & f & ns & _ & H & HU & _)|[_ ->]]; auto. rewrite (required_fun _ _ _ _ H Hh) in HU. now elim HU. }
    apply url_false in Eu.
    destruct (read_schema w (join [dir; h])) as [f|] eqn:Ef; cbn [found].
    2:{ split.
        - intros <-. right. split; auto. intros h' f ns _ H _ HF. rewrite (required_fun _ _ _ _ H Hh) in HF. congruence.
        - intros [(h' & f & ns & _ & H & _ & HF & _)|[_ ->]]; auto. rewrite (required_fun _ _ _ _ H Hh) in HF. congruence. }
    destruct (req (sf_attrs f) "targetNamespace") as [ns|] eqn:En; cbn [found].
    - assert (Hn := proj1 (req_iff _ _ _) En). split.
      + intros <-. left. exists h, f, ns. auto 10.
      + intros [(h' & f' & ns' & _ & H & _ & HF & HN & ->)|[H _]].
        * rewrite (required_fun _ _ _ _ H Hh) in *. assert (f' = f) as -> by congruence.
          now rewrite (required_fun _ _ _ _ HN Hn).
        * exfalso. exact (H h f ns E Hh Eu Ef Hn).
    - assert (N := proj1 (req_None _ _) En). split.
      + intros <-. right. split; auto. intros h' f' ns' _ H _ HF HN. rewrite (required_fun _ _ _ _ H Hh) in *.
        assert (f' = f) as -> by congruence. now apply N in HN.
      + intros [(h' & f' & ns' & _ & H & _ & HF & HN & ->)|[_ ->]]; auto.
        rewrite (required_fun _ _ _ _ H Hh) in *. assert (f' = f) as -> by congruence. now apply N in HN.
  Qed.

  Lemma include_iff e d : include_body w dir e = d <->
    (exists h f ns, xsd_element e /\ required (eattrs e) "schemaLocation" h /\ ~ url h /\ sof h f /\ target_namespace f ns /\
       d = Claim ns h (Load h f)) \/
    ((forall h f ns, xsd_element e -> required (eattrs e) "schemaLocation" h -> ~ url h -> sof h f -> ~ target_namespace f ns) /\ d = Stop).
  Proof.
    unfold include_body, xsd_element, schema_of, target_namespace.
    destruct (String.eqb_spec (nspace (ename e)) XSD) as [E|E]; cbn [negb].
    2:{ split; [intros <-; right; split; auto; intros; contradiction|intros [(h & f & ns & H & _)|[_ ->]]; [contradiction|auto]]. }
    destruct (req (eattrs e) "schemaLocation") as [h|] eqn:Eh; cbn [found].
    2:{ assert (N := proj1 (req_None _ _) Eh).
        split; [intros <-; right; split; auto; intros h ? ? _ H; now apply N in H|intros [(h & f & ns & _ & H & _)|[_ ->]]; [now apply N in H|auto]]. }
    assert (Hh := proj1 (req_iff _ _ _) Eh).
    destruct (is_url w h) eqn:Eu.
    { split.
      - intros <-. right. split; auto. intros h' f ns _ H HU. rewrite (required_fun _ _ _ _ H Hh) in HU. now elim HU.
      - intros [(h' & f & ns & _ & H & HU & _)|[_ ->]]; auto. rewrite (required_fun _ _ _ _ H Hh) in HU. now elim HU. }
    apply url_false in Eu.
    destruct (read_schema w (join [dir; h])) as [f|] eqn:Ef; cbn [found].
    2:{ split.
        - intros <-. right. split; auto. intros h' f ns _ H _ HF. rewrite (required_fun _ _ _ _ H Hh) in HF. congruence.
        - intros [(h' & f & ns & _ & H & _ & HF & _)|[_ ->]]; auto. rewrite (required_fun _ _ _ _ H Hh) in HF. congruence. }
    destruct (req (sf_attrs f) "targetNamespace") as [ns|] eqn:En; cbn [found].
    - assert (Hn := proj1 (req_iff _ _ _) En). split.
      + intros <-. left. exists h, f, ns. auto 10.
      + intros [(h' & f' & ns' & _ & H & _ & HF & HN & ->)|[H _]].
        * rewrite (required_fun _ _ _ _ H Hh) in *. assert (f' = f) as -> by congruence.
          now rewrite (required_fun _ _ _ _ HN Hn).
        * exfalso. exact (H h f ns E Hh Eu Ef Hn).
    - assert (N := proj1 (req_None _ _) En). split.
      + intros <-. right. split; auto. intros h' f' ns' _ H _ HF HN. rewrite (required_fun _ _ _ _ H Hh) in *.
        assert (f' = f) as -> by congruence. now apply N in HN.
      + intros [(h' & f' & ns' & _ & H & _ & HF & HN & ->)|[_ ->]]; auto.
        rewrite (required_fun _ _ _ _ H Hh) in *. assert (f' = f) as -> by congruence. now apply N in HN.
  Qed.

  (** An import always claims its namespace; it goes on if its file is there *)
  Lemma import_cases e :
    (exists ns h d, xsd_element e /\ required (eattrs e) "namespace" ns /\ required (eattrs e) "schemaLocation" h /\
       import_body w dir e = Claim ns h d /\
       ((exists f, ~ url h /\ sof h f /\ d = Load h f) \/ ((forall f, ~ url h -> ~ sof h f) /\ d = Stop))) \/
    ((forall ns h, xsd_element e -> required (eattrs e) "namespace" ns -> ~ required (eattrs e) "schemaLocation" h) /\
     import_body w dir e = Stop).
  Proof.
    unfold import_body, xsd_element, schema_of.
    destruct (String.eqb_spec (nspace (ename e)) XSD) as [E|E]; cbn [negb].
    2:{ right. split; [intros; contradiction|reflexivity]. }
    destruct (req (eattrs e) "namespace") as [ns|] eqn:En; cbn [found].
    2:{ right. split; auto. intros ns h _ H. now apply (proj1 (req_None _ _) En) in H. }
    destruct (req (eattrs e) "schemaLocation") as [h|] eqn:Eh; cbn [found].
    2:{ right. split; auto. intros ns' h _ _ H. now apply (proj1 (req_None _ _) Eh) in H. }
    left. exists ns, h. eexists. split; [exact E|]. split; [now apply req_iff|]. split; [now apply req_iff|].
    split; [reflexivity|]. destruct (is_url w h) eqn:Eu.
    - right. split; [|reflexivity]. intros f HU. now elim HU.
    - apply url_false in Eu. destruct (read_schema w (join [dir; h])) as [f|]; cbn [found].
      + left. exists f. auto.
      + right. split; [|reflexivity]. intros f _ HF. discriminate.
  Qed.

  Definition is_linkbase_ref (e : elem) (k : kind) (h : string) : Prop :=
    link_element e /\ xlink (eattrs e) "arcrole" "http://www.w3.org/1999/xlink/properties/linkbase" /\
    xlink (eattrs e) "type" "simple" /\ xlink (eattrs e) "role" (linkbase_role k) /\ xlink (eattrs e) "href" h.

  Lemma xlink_fun attrs n v v' : xlink attrs n v -> xlink attrs n v' -> v = v'.
  Proof. rewrite <- !xreq_iff. congruence. Qed.
  Lemma role_fun k k' : linkbase_role k = linkbase_role k' -> k = k'.
  Proof. destruct k, k'; auto; discriminate. Qed.

  Lemma linkbase_ref_cases e :
    (exists k h l, is_linkbase_ref e k h /\ ~ url h /\ lof k h l /\ linkbase_ref_body w dir e = Store k h l) \/
    ((forall k h l, is_linkbase_ref e k h -> ~ url h -> ~ lof k h l) /\ linkbase_ref_body w dir e = Stop).
  Proof.
    unfold linkbase_ref_body, is_linkbase_ref, link_element, linkbase_of.
    destruct (String.eqb_spec (nspace (ename e)) LINK) as [E|E]; cbn [negb].
    2:{ right. split; auto. intros k h l [H _]. contradiction. }
    destruct (xattr_is (eattrs e) "arcrole" LINKARCROLE) as [[]|] eqn:Ea; cbn [found].
    2:{ right. split; auto. intros k h l (_ & H & _). apply (xattr_is_iff _ _ _ tt) in H; [|discriminate].
        unfold LINKARCROLE in Ea. congruence. }
    apply xattr_is_iff in Ea; [|discriminate].
    destruct (xattr_is (eattrs e) "type" "simple") as [[]|] eqn:Et; cbn [found].
    2:{ right. split; auto. intros k h l (_ & _ & H & _). apply (xattr_is_iff _ _ _ tt) in H; [|discriminate]. congruence. }
    apply xattr_is_iff in Et; [|discriminate].
    destruct (xreq (eattrs e) "role") as [role|] eqn:Er; cbn [found].
    2:{ right. split; auto. intros k h l (_ & _ & _ & H & _). apply xreq_iff in H. congruence. }
    apply xreq_iff in Er.
    destruct (xreq (eattrs e) "href") as [h|] eqn:Eh; cbn [found].
    2:{ right. split; auto. intros k h l (_ & _ & _ & _ & H). apply xreq_iff in H. congruence. }
    apply xreq_iff in Eh.
    destruct (is_url w h) eqn:Eu.
    { right. split; auto. intros k h' l (_ & _ & _ & _ & H) HU. rewrite (xlink_fun _ _ _ _ H Eh) in HU. now elim HU. }
    apply url_false in Eu.
    destruct (linkbase_kind role) as [k|] eqn:Ek; cbn [found].
    2:{ right. split; auto. intros k h' l (_ & _ & _ & H & _). rewrite (xlink_fun _ _ _ _ Er H) in Ek.
        assert (linkbase_kind (linkbase_role k) = Some k) by now apply linkbase_kind_iff. congruence. }
    apply linkbase_kind_iff in Ek. subst role.
    destruct (read_linkbase w k (join [dir; h])) as [l|] eqn:El; cbn [found].
    - left. exists k, h, l. auto 10.
    - right. split; auto. intros k' h' l (_ & _ & _ & Hr & Hh) _ Hl.
      rewrite (xlink_fun _ _ _ _ Hh Eh) in Hl. rewrite (role_fun _ _ (xlink_fun _ _ _ _ Hr Er)) in Hl. congruence.
  Qed.

  Lemma linkbase_refs_iff f e : In e (linkbase_refs f) <->
    exists an ai, In an (sf_annotation f) /\ nspace (an_name an) = XSD /\ In ai (an_appinfo an) /\ nspace (ai_name ai) = XSD /\
      In e (ai_linkbaseRef ai).
  Proof.
    unfold linkbase_refs. rewrite in_flat_map. split.
    - intros (an & Han & H). destruct (String.eqb_spec (nspace (an_name an)) XSD) as [E|E]; cbn [negb] in H; [|contradiction].
      apply in_flat_map in H as (ai & Hai & H). destruct (String.eqb_spec (nspace (ai_name ai)) XSD) as [E'|E']; cbn [negb] in H; [|contradiction].
      exists an, ai. auto.
    - intros (an & ai & Han & E & Hai & E' & H). exists an. split; auto. rewrite E, String.eqb_refl. cbn [negb].
      apply in_flat_map. exists ai. split; auto. now rewrite E', String.eqb_refl.
  Qed.

  Lemma names_linkbase_iff f k h : names_linkbase f k h <-> exists e, In e (linkbase_refs f) /\ is_linkbase_ref e k h.
  Proof.
    unfold names_linkbase, is_linkbase_ref. split.
    - intros (an & ai & e & H1 & H2 & H3 & H4 & H5 & H6). exists e. split; auto. apply linkbase_refs_iff. exists an, ai. auto 10.
    - intros (e & H & H'). apply linkbase_refs_iff in H as (an & ai & H1 & H2 & H3 & H4 & H5). exists an, ai, e. auto 10.
  Qed.

  (** ** Soundness *)
  Variable refs : list elem.
  Notation follows := (followed url sof refs).
  Notation follows_linkbase := (followed_linkbase url sof lof refs).
  Notation claimed := (claims url sof refs).

  Fixpoint sound (d : todo) : Prop :=
    match d with
    | Stop => True
    | Claim ns h next => claimed ns h /\ sound next
    | Load h f => follows h f
    | Store k h l => follows_linkbase k h l
    end.

  Lemma ref_sound e : In e refs -> sound (schema_ref_body w dir e).
  Proof.
    intros HI. destruct (proj1 (schema_ref_iff e _) eq_refl) as [(h & f & ns & H1 & H2 & H3 & H4 & H5 & ->)|[_ ->]]; [|exact I].
    assert (refers_to refs h) by (exists e; auto).
    cbn. split; [eapply claim_ref; eauto|eapply follow_ref; eauto].
  Qed.
  Lemma children_sound h f : follows h f -> Forall sound (children w dir f).
  Proof.
    intros F. unfold children. apply Forall_app. split; [|apply Forall_app; split]; apply Forall_forall; intros d Hd; apply in_map_iff in Hd as (e & <- & HI).
    - destruct (import_cases e) as [(ns & h' & d & H1 & H2 & H3 & -> & H4)|[_ ->]]; [|exact I].
      assert (imports_for f ns h') by (exists e; auto).
      cbn. split; [eapply claim_import; eauto|]. destruct H4 as [(f' & H4 & H5 & ->)|[_ ->]]; [|exact I].
      cbn. eapply follow_import; eauto.
    - destruct (proj1 (include_iff e _) eq_refl) as [(h' & f' & ns & H1 & H2 & H3 & H4 & H5 & ->)|[_ ->]]; [|exact I].
      assert (includes f h') by (exists e; auto).
      cbn. split; [eapply claim_include; eauto|eapply follow_include; eauto].
    - destruct (linkbase_ref_cases e) as [(k & h' & l & H1 & H2 & H3 & ->)|[_ ->]]; [|exact I].
      cbn. exists h, f. split; auto. split; auto. apply names_linkbase_iff. eauto.
  Qed.

  Fixpoint psound (p : proc) : Prop :=
    match p with
    | Run d => sound d
    | Wait ps h f => follows h f /\ fold_right (fun p P => psound p /\ P) True ps
    | Finished => True
    end.
  Lemma all_sound ps : fold_right (fun p P => psound p /\ P) True ps <-> Forall psound ps.
  Proof. induction ps as [|p ps IH]; cbn; split; auto; intros H; [destruct H|inversion H]; subst; constructor; tauto. Qed.

  Definition fsound (fd : folder) : Prop :=
    (is_map (fdNamespaces fd) /\ forall ns h, In (ns, h) (fdNamespaces fd) -> claimed ns h) /\
    (is_map (fdSchemas fd) /\ forall h f, In (h, f) (fdSchemas fd) -> follows h f) /\
    (forall k, is_map (holds_linkbases fd k) /\ forall h l, In (h, l) (holds_linkbases fd k) -> follows_linkbase k h l).

  Lemma kept {V} (P : string -> V -> Prop) m k v : is_map m /\ (forall h x, In (h, x) m -> P h x) -> P k v ->
    is_map (sset k v m) /\ forall h x, In (h, x) (sset k v m) -> P h x.
  Proof.
    intros [M H] Hk. split; [now apply sset_is_map|]. intros h x HI. apply sset_In_iff in HI; auto.
    destruct HI as [[-> ->]|[_ HI]]; auto.
  Qed.

  Lemma step_sound fd p fd' p' : pstep w dir fd p fd' p' -> fsound fd -> psound p -> fsound fd' /\ psound p'.
  Proof.
    induction 1 as [fd|fd ns h next|fd h f|fd k h l|fd fd' a p p' b h f H IH|fd ps h f HF]; intros FS PS.
    - auto.
    - destruct PS as [C S]. split; auto. destruct FS as (F1 & F2 & F3).
      split; [|split]; auto. apply (kept (fun ns h => claimed ns h)); auto.
    - cbn in PS. split; auto. cbn. split; auto. apply all_sound. apply Forall_forall. intros p Hp.
      apply in_map_iff in Hp as (d & <- & Hd). exact (proj1 (Forall_forall _ _) (children_sound h f PS) d Hd).
    - cbn in PS. split; [|exact I]. destruct FS as (F1 & F2 & F3).
      split; [now destruct k|split; [now destruct k|]]. intros k'. specialize (F3 k').
      destruct k, k'; try exact F3; cbn in *; apply (kept (fun h l => follows_linkbase _ h l)); auto.
    - cbn [psound] in *. destruct PS as [PF PS]. apply all_sound in PS. apply Forall_app in PS as [Pa Pb]. inversion Pb; subst.
      destruct (IH FS) as [FS' PS']; auto. split; auto. split; auto. apply all_sound. apply Forall_app. auto.
    - destruct PS as [PF PS]. split; [|exact I]. destruct FS as (F1 & F2 & F3).
      split; [|split]; auto. apply (kept (fun h f => follows h f)); auto.
  Qed.

  Lemma runs_sound s s' : fruns w dir s s' -> fsound (fst s) -> Forall psound (snd s) -> fsound (fst s') /\ Forall psound (snd s').
  Proof.
    induction 1 as [|s s' s'' R IH H]; intros FS PS; auto. destruct (IH FS PS) as [FS' PS']. destruct H as [fd fd' a p p' b H].
    cbn in *. apply Forall_app in PS' as [Pa Pb]. inversion Pb; subst.
    destruct (step_sound _ _ _ _ H FS') as [FS'' PS'']; auto. split; auto. apply Forall_app. auto.
  Qed.

  (** ** Completeness *)
  Inductive event := EvClaim (ns : string) | EvSchema (h : string) (f : schema_file) | EvLinkbase (k : kind) (h : string).
  Inductive owes : todo -> event -> Prop :=
  | owes_claim : forall ns h next, owes (Claim ns h next) (EvClaim ns)
  | owes_next : forall ns h next e, owes next e -> owes (Claim ns h next) e
  | owes_load : forall h f, owes (Load h f) (EvSchema h f)
  | owes_child : forall h f d e, In d (children w dir f) -> owes d e -> owes (Load h f) e
  | owes_store : forall k h l, owes (Store k h l) (EvLinkbase k h).

  Inductive powes : proc -> event -> Prop :=
  | powes_run : forall d e, owes d e -> powes (Run d) e
  | powes_self : forall ps h f, powes (Wait ps h f) (EvSchema h f)
  | powes_child : forall ps p h f e, In p ps -> powes p e -> powes (Wait ps h f) e.

  Definition settled (fd : folder) (e : event) : Prop :=
    match e with
    | EvClaim ns => sget ns (fdNamespaces fd) <> None
    | EvSchema h _ => sget h (fdSchemas fd) <> None
    | EvLinkbase k h => sget h (holds_linkbases fd k) <> None
    end.

  Lemma sget_sset_some {V} k v (m : list (string * V)) : sget k (sset k v m) <> None.
  Proof. rewrite (mget_mset_eq _ seqP). discriminate. Qed.
  Lemma sget_sset_mono {V} k v (m : list (string * V)) k' : sget k' m <> None -> sget k' (sset k v m) <> None.
  Proof.
    intros H. destruct (String.eqb_spec k k') as [->|N]; [apply sget_sset_some|].
    rewrite (mget_mset_neq _ seqP); auto.
  Qed.

  Lemma step_settled fd p fd' p' e : pstep w dir fd p fd' p' -> settled fd e -> settled fd' e.
  Proof.
    induction 1 as [fd|fd ns h next|fd h f|fd k h l|fd fd' a p p' b h f H IH|fd ps h f HF]; auto; intros S; destruct e as [n|h' f'|k' h']; cbn in *; auto using sget_sset_mono.
    - now destruct k.
    - now destruct k.
    - destruct k, k'; cbn in *; auto using sget_sset_mono.
  Qed.

  Lemma finished_owes e : ~ powes Finished e.
  Proof. intros H. inversion H. Qed.

  Lemma step_owes fd p fd' p' e : pstep w dir fd p fd' p' -> powes p e -> powes p' e \/ settled fd' e.
  Proof.
    induction 1 as [fd|fd ns h next|fd h f|fd k h l|fd fd' a p p' b h f H IH|fd ps h f HF]; intros O; inversion O; subst.
    - inversion H0.
    - inversion H0; subst; [right; apply sget_sset_some|left; now constructor].
    - inversion H0; subst; left; [apply powes_self|]. apply (powes_child _ (Run d)); [now apply in_map|now constructor].
    - inversion H0; subst. right. destruct k; apply sget_sset_some.
    - left. apply powes_self.
    - match goal with HI : In ?q (a ++ p :: b), Ho : powes ?q e |- _ => pose proof HI as HI'; pose proof Ho as Ho' end.
      apply in_app_or in HI'. destruct HI' as [HI'|[<-|HI']].
      + left. eapply powes_child; [|exact Ho']. apply in_or_app. auto.
      + destruct (IH Ho') as [IH'|IH']; auto. left. apply (powes_child _ p'); auto. apply in_or_app. right. left. auto.
      + left. eapply powes_child; [|exact Ho']. apply in_or_app. right. right. auto.
    - right. apply sget_sset_some.
    - match goal with HI : In ?q ps, Ho : powes ?q e |- _ => rewrite Forall_forall in HF; rewrite <- (HF _ HI) in Ho; now apply finished_owes in Ho end.
  Qed.

  Definition ready (s : state) (e : event) : Prop := (exists p, In p (snd s) /\ powes p e) \/ settled (fst s) e.
  Lemma runs_ready s s' e : fruns w dir s s' -> ready s e -> ready s' e.
  Proof.
    induction 1 as [|s s' s'' R IH H]; intros O; auto. specialize (IH O). destruct H as [fd fd' a p p' b H]. unfold ready in *. cbn in *.
    destruct IH as [(q & Hq & Ho)|S]; [|right; eapply step_settled; eauto].
    apply in_app_or in Hq. destruct Hq as [Hq|[<-|Hq]].
    - left. exists q. split; auto. apply in_or_app. auto.
    - destruct (step_owes _ _ _ _ _ H Ho) as [O'|S]; auto. left. exists p'. split; auto. apply in_or_app. right. now left.
    - left. exists q. split; auto. apply in_or_app. right. now right.
  Qed.
  Lemma joined_settled s s' e : fruns w dir s s' -> joined s' -> ready s e -> settled (fst s') e.
  Proof.
    intros R J O. destruct (runs_ready _ _ _ R O) as [(p & Hp & Ho)|S]; auto.
    unfold joined in J. rewrite Forall_forall in J. rewrite <- (J _ Hp) in Ho. now apply finished_owes in Ho.
  Qed.

  Lemma owes_trans d h f c e : owes d (EvSchema h f) -> In c (children w dir f) -> owes c e -> owes d e.
  Proof.
    intros H. remember (EvSchema h f) as ev eqn:E. induction H as [| |h' f'|h' f'|]; subst; try discriminate; intros HI HO.
    - apply owes_next. auto.
    - injection E as -> ->. eapply owes_child; eauto.
    - eapply owes_child; eauto.
  Qed.

  Definition start : list todo := map (schema_ref_body w dir) refs.

  Lemma include_child f h f' ns : includes f h -> ~ url h -> sof h f' -> target_namespace f' ns ->
    In (Claim ns h (Load h f')) (children w dir f).
  Proof.
    intros (e & HI & HX & Hh) HU HF HN. unfold children. apply in_or_app. right. apply in_or_app. left. apply in_map_iff. exists e.
    split; auto. apply include_iff. left. exists h, f', ns. auto 10.
  Qed.
  Lemma import_child f ns h f' : imports_for f ns h -> ~ url h -> sof h f' ->
    In (Claim ns h (Load h f')) (children w dir f).
  Proof.
    intros (e & HI & HX & Hn & Hh) HU HF. unfold children. apply in_or_app. left. apply in_map_iff. exists e. split; auto.
    destruct (import_cases e) as [(ns' & h' & d & _ & H2 & H3 & -> & H4)|[H _]]; [|now elim (H _ _ HX Hn Hh)].
    rewrite (required_fun _ _ _ _ Hn H2), (required_fun _ _ _ _ Hh H3). rewrite (required_fun _ _ _ _ Hh H3) in *.
    destruct H4 as [(f2 & _ & H5 & ->)|[H5 _]]; [|now elim (H5 _ HU HF)].
    unfold schema_of in *. congruence.
  Qed.
  Lemma import_claim_child f ns h : imports_for f ns h -> exists next, In (Claim ns h next) (children w dir f).
  Proof.
    intros (e & HI & HX & Hn & Hh).
    destruct (import_cases e) as [(ns' & h' & d & _ & H2 & H3 & E & H4)|[H _]]; [|now elim (H _ _ HX Hn Hh)].
    exists d. unfold children. apply in_or_app. left. apply in_map_iff. exists e. split; auto.
    now rewrite E, (required_fun _ _ _ _ Hn H2), (required_fun _ _ _ _ Hh H3).
  Qed.
  Lemma linkbase_child f k h l : names_linkbase f k h -> ~ url h -> lof k h l -> In (Store k h l) (children w dir f).
  Proof.
    intros H HU HL. apply names_linkbase_iff in H as (e & HI & H). unfold children. apply in_or_app. right. apply in_or_app. right.
    apply in_map_iff. exists e. split; auto.
    destruct (linkbase_ref_cases e) as [(k' & h' & l' & (_ & _ & _ & Hr & Hh) & _ & HL' & ->)|[N _]]; [|now elim (N _ _ _ H HU HL)].
    destruct H as (_ & _ & _ & Hr' & Hh'). rewrite (xlink_fun _ _ _ _ Hh Hh') in *. rewrite (role_fun _ _ (xlink_fun _ _ _ _ Hr Hr')) in *.
    unfold linkbase_of in *. congruence.
  Qed.
  Lemma ref_start h f ns : refers_to refs h -> ~ url h -> sof h f -> target_namespace f ns -> In (Claim ns h (Load h f)) start.
  Proof.
    intros (e & HI & HX & Hh) HU HF HN. unfold start. apply in_map_iff. exists e. split; auto.
    apply schema_ref_iff. left. exists h, f, ns. auto 10.
  Qed.

  Definition start_owes (e : event) : Prop := exists d, In d start /\ owes d e.

  Lemma followed_owed h f : follows h f -> start_owes (EvSchema h f).
  Proof.
    induction 1 as [h f ns H1 H2 H3 H4|g h0 h f ns F (d & Hd & Ho) H1 H2 H3 H4|g h0 h f ns F (d & Hd & Ho) H1 H2 H3].
    - exists (Claim ns h (Load h f)). split; [now apply ref_start|]. apply owes_next, owes_load.
    - exists d. split; auto. eapply owes_trans; eauto; [now apply include_child with (2 := H2) (3 := H3) (4 := H4)|]. apply owes_next, owes_load.
    - exists d. split; auto. eapply owes_trans; eauto; [now apply import_child with (1 := H1) (2 := H2) (3 := H3)|]. apply owes_next, owes_load.
  Qed.
  Lemma linkbase_owed k h l : follows_linkbase k h l -> start_owes (EvLinkbase k h).
  Proof.
    intros (h0 & g & F & H1 & H2 & H3). destruct (followed_owed _ _ F) as (d & Hd & Ho). exists d. split; auto.
    eapply owes_trans; eauto; [now apply linkbase_child with (1 := H1) (2 := H2) (3 := H3)|]. constructor.
  Qed.
  Lemma claim_owed ns h : claimed ns h -> start_owes (EvClaim ns).
  Proof.
    destruct 1 as [h f ns H1 H2 H3 H4|g h0 h f ns F H1 H2 H3 H4|g h0 h ns F H1].
    - exists (Claim ns h (Load h f)). split; [now apply ref_start|]. constructor.
    - destruct (followed_owed _ _ F) as (d & Hd & Ho). exists d. split; auto.
      eapply owes_trans; eauto; [now apply include_child with (2 := H2) (3 := H3) (4 := H4)|]. constructor.
    - destruct (followed_owed _ _ F) as (d & Hd & Ho). exists d. split; auto.
      destruct (import_claim_child _ _ _ H1) as (next & HI). eapply owes_trans; eauto. constructor.
  Qed.

  (** ** Termination *)
  Notation pts := (points_to url sof).
  Notation fin := (ends url sof).

  Fixpoint target (d : todo) : option string :=
    match d with Stop => None | Claim _ _ next => target next | Load h _ => Some h | Store _ _ _ => None end.
  Fixpoint content (d : todo) : Prop :=
    match d with Stop => True | Claim _ _ next => content next | Load h f => sof h f | Store _ _ _ => True end.

  Lemma child_points h f d h' : sof h f -> In d (children w dir f) -> target d = Some h' -> pts h h'.
  Proof.
    intros F HI HT. unfold children in HI. apply in_app_or in HI as [HI|HI]; [|apply in_app_or in HI as [HI|HI]];
      apply in_map_iff in HI as (e & <- & HI).
    - destruct (import_cases e) as [(ns & h2 & d & H1 & H2 & H3 & E & H4)|[_ E]]; rewrite E in HT; [|discriminate].
      cbn in HT. destruct H4 as [(f' & H4 & H5 & ->)|[_ ->]]; [|discriminate]. injection HT as <-.
      exists f, f'. split; auto. split; auto. split; auto. right. exists ns, e. auto.
    - destruct (proj1 (include_iff e _) eq_refl) as [(h2 & f' & ns & H1 & H2 & H3 & H4 & H5 & E)|[_ E]]; rewrite E in HT; [|discriminate].
      cbn in HT. injection HT as <-. exists f, f'. split; auto. split; auto. split; auto. left. split; [exists e; auto|eauto].
    - destruct (linkbase_ref_cases e) as [(k & h2 & l & H1 & H2 & H3 & E)|[_ E]]; rewrite E in HT; discriminate.
  Qed.
  Lemma points_child h h' f : pts h h' -> sof h f -> exists d, In d (children w dir f) /\ target d = Some h'.
  Proof.
    intros (f0 & f' & H0 & H1 & H2 & H3) F. assert (f0 = f) as -> by (unfold schema_of in *; congruence).
    destruct H3 as [[H3 (ns & H4)]|(ns & H3)].
    - exists (Claim ns h' (Load h' f')). split; auto. eapply include_child; eauto.
    - exists (Claim ns h' (Load h' f')). split; auto. eapply import_child; eauto.
  Qed.
  Lemma child_content f d : In d (children w dir f) -> content d.
  Proof.
    intros HI. unfold children in HI. apply in_app_or in HI as [HI|HI]; [|apply in_app_or in HI as [HI|HI]];
      apply in_map_iff in HI as (e & <- & HI).
    - destruct (import_cases e) as [(ns & h2 & d & H1 & H2 & H3 & E & H4)|[_ E]]; rewrite E; [|exact I].
      cbn. destruct H4 as [(f' & H4 & H5 & ->)|[_ ->]]; cbn; auto.
    - destruct (proj1 (include_iff e _) eq_refl) as [(h2 & f' & ns & H1 & H2 & H3 & H4 & H5 & E)|[_ E]]; rewrite E; cbn; auto.
    - destruct (linkbase_ref_cases e) as [(k & h2 & l & H1 & H2 & H3 & E)|[_ E]]; rewrite E; exact I.
  Qed.
  Lemma start_content d : In d start -> content d.
  Proof.
    intros HI. apply in_map_iff in HI as (e & <- & _).
    destruct (proj1 (schema_ref_iff e _) eq_refl) as [(h2 & f' & ns & H1 & H2 & H3 & H4 & H5 & E)|[_ E]]; rewrite E; cbn; auto.
  Qed.

  (** Steps without the folder *)
  Definition after (p' p : proc) : Prop := exists fd fd', pstep w dir fd p fd' p'.
  Inductive one_after : list proc -> list proc -> Prop :=
  | one_after_intro : forall a p p' b, after p' p -> one_after (a ++ p' :: b)%list (a ++ p :: b)%list.

  Lemma list_acc ps : Forall (Acc after) ps -> Acc one_after ps.
  Proof.
    induction ps as [|p ps IH]; intros H.
    - constructor. intros l HL. inversion HL as [a q q' b Hs E1 E2]. now destruct a.
    - inversion H as [|? ? Hp Hps]; subst. specialize (IH Hps). clear H Hps.
      revert ps IH. induction Hp as [p Hp IHp]. intros ps IH. induction IH as [ps Hps IHps].
      constructor. intros l HL. inversion HL as [a q q' b Hs E1 E2]. destruct a as [|a0 a]; cbn in E2; injection E2 as -> <-.
      + cbn. apply IHp; auto. constructor. exact Hps.
      + cbn. apply IHps. now constructor.
  Qed.

  Lemma wait_acc ps h f : Acc one_after ps -> Acc after (Wait ps h f).
  Proof.
    induction 1 as [ps _ IH]. constructor. intros p' (fd & fd' & H). inversion H; subst.
    - apply IH. constructor. exists fd, fd'. auto.
    - constructor. intros q (fd1 & fd2 & Hq). inversion Hq.
  Qed.
  Lemma finished_acc : Acc after Finished.
  Proof. constructor. intros q (fd1 & fd2 & Hq). inversion Hq. Qed.

  Lemma load_acc h : fin h -> forall f, sof h f -> Acc after (Run (Load h f)).
  Proof.
    induction 1 as [h _ IH]. intros f F. constructor. intros p' (fd & fd' & H). inversion H; subst.
    apply wait_acc, list_acc. apply Forall_forall. intros p Hp. apply in_map_iff in Hp as (d & <- & Hd).
    assert (HT : forall h', target d = Some h' -> pts h h') by (intros h'; now apply (child_points h f)).
    assert (HC := child_content _ _ Hd). clear Hd. induction d as [|ns h' next IHd|h' f'|k h' l].
    - constructor. intros q (fd1 & fd2 & Hq). inversion Hq; subst. apply finished_acc.
    - constructor. intros q (fd1 & fd2 & Hq). inversion Hq; subst. apply IHd; auto.
    - apply IH; auto.
    - constructor. intros q (fd1 & fd2 & Hq). inversion Hq; subst. apply finished_acc.
  Qed.
  Lemma run_acc d : content d -> (forall h, target d = Some h -> fin h) -> Acc after (Run d).
  Proof.
    induction d as [|ns h' next IHd|h' f'|k h' l]; intros C T.
    - constructor. intros q (fd1 & fd2 & Hq). inversion Hq; subst. apply finished_acc.
    - constructor. intros q (fd1 & fd2 & Hq). inversion Hq; subst. apply IHd; auto.
    - apply load_acc; auto.
    - constructor. intros q (fd1 & fd2 & Hq). inversion Hq; subst. apply finished_acc.
  Qed.

  (** Conversely: what has finished had no endless chain *)
  Fixpoint pfin (p : proc) : Prop :=
    match p with
    | Run d => content d /\ forall h, target d = Some h -> fin h
    | Wait ps _ _ => fold_right (fun p P => pfin p /\ P) True ps
    | Finished => True
    end.
  Lemma all_pfin ps : fold_right (fun p P => pfin p /\ P) True ps <-> Forall pfin ps.
  Proof. induction ps as [|p ps IH]; cbn; split; auto; intros H; [destruct H|inversion H]; subst; constructor; tauto. Qed.
  Fixpoint pcontent (p : proc) : Prop :=
    match p with
    | Run d => content d
    | Wait ps _ _ => fold_right (fun p P => pcontent p /\ P) True ps
    | Finished => True
    end.
  Lemma all_pcontent ps : fold_right (fun p P => pcontent p /\ P) True ps <-> Forall pcontent ps.
  Proof. induction ps as [|p ps IH]; cbn; split; auto; intros H; [destruct H|inversion H]; subst; constructor; tauto. Qed.

  Lemma step_content fd p fd' p' : pstep w dir fd p fd' p' -> pcontent p -> pcontent p'.
  Proof.
    induction 1 as [fd|fd ns h next|fd h f|fd k h l|fd fd' a p p' b h f H IH|fd ps h f HF]; cbn [pcontent]; auto; intros C.
    - apply all_pcontent, Forall_forall. intros p Hp. apply in_map_iff in Hp as (d & <- & Hd). exact (child_content _ _ Hd).
    - apply all_pcontent in C. apply all_pcontent. apply Forall_app in C as [Ca Cb]. inversion Cb; subst. apply Forall_app. auto.
  Qed.
  Lemma step_back fd p fd' p' : pstep w dir fd p fd' p' -> pcontent p -> pfin p' -> pfin p.
  Proof.
    induction 1 as [fd|fd ns h next|fd h f|fd k h l|fd fd' a p p' b h f H IH|fd ps h f HF]; cbn [pcontent pfin]; auto; intros C F.
    - split; auto. discriminate.
    - split; auto. intros h' [= <-]. constructor. intros h' HP. destruct (points_child _ _ _ HP C) as (d & Hd & HT).
      apply all_pfin in F. rewrite Forall_forall in F. apply (F (Run d)); auto. now apply in_map.
    - split; auto. discriminate.
    - apply all_pcontent in C. apply all_pfin. apply all_pfin in F. apply Forall_app in C as [Ca Cb]. inversion Cb; subst.
      apply Forall_app in F as [Fa Fb]. inversion Fb; subst. apply Forall_app. auto.
    - apply all_pfin. eapply Forall_impl; [|exact HF]. intros p <-. exact I.
  Qed.
  Lemma runs_back s s' : fruns w dir s s' -> Forall pcontent (snd s) -> Forall pfin (snd s') -> Forall pcontent (snd s') /\ Forall pfin (snd s).
  Proof.
    induction 1 as [|s s' s'' R IH H]; intros C F; auto. destruct H as [fd fd' a p p' b H]. cbn in *.
    assert (C' : Forall pcontent (a ++ p :: b)).
    { clear F IH. revert C. remember (fd, (a ++ p :: b)%list) as s1 eqn:E. intros C. change (a ++ p :: b)%list with (snd (fd, (a ++ p :: b)%list)). rewrite <- E.
      clear E H. induction R as [|s0 s1 s2 R IH H]; auto. specialize (IH C). destruct H as [fd1 fd2 a1 p1 p2 b1 H]. cbn in *.
      apply Forall_app in IH as [Ia Ib]. inversion Ib; subst. apply Forall_app. split; auto. constructor; auto. eapply step_content; eauto. }
    assert (C'' := C'). apply Forall_app in C'' as [Ca Cb]. inversion Cb as [|? ? Cp Cb']; subst.
    apply Forall_app in F as [Fa Fb]. inversion Fb as [|? ? Fp Fb']; subst.
    split; [apply Forall_app; split; auto; constructor; auto; eapply step_content; eauto|].
    apply IH; auto. apply Forall_app. split; auto. constructor; auto. eapply step_back; eauto.
  Qed.

  (** ** Progress *)
  Lemma proc_ind' (P : proc -> Prop) : (forall d, P (Run d)) -> P Finished ->
    (forall ps h f, Forall P ps -> P (Wait ps h f)) -> forall p, P p.
  Proof.
    intros H1 H2 H3. fix IH 1. intros [d|ps h f|]; [apply H1| |apply H2]. apply H3.
    induction ps as [|p ps IHp]; constructor; auto.
  Qed.
  Lemma all_finished_or ps : Forall (eq Finished) ps \/ exists a p b, ps = (a ++ p :: b)%list /\ p <> Finished.
  Proof.
    induction ps as [|p ps [IH|(a & q & b & -> & N)]]; auto.
    - destruct p; [right; eexists [], _, _; split; [reflexivity|discriminate] ..|left; auto].
    - right. exists (p :: a)%list, q, b. auto.
  Qed.
  Lemma progress p : p <> Finished -> forall fd, exists fd' p', pstep w dir fd p fd' p'.
  Proof.
    induction p as [d| |ps h f IH] using proc_ind'; intros N fd; [|contradiction|].
    - destruct d; eexists; eexists; constructor.
    - destruct (all_finished_or ps) as [HF|(a & p & b & -> & Np)].
      + do 2 eexists. now apply step_joined.
      + rewrite Forall_forall in IH. destruct (IH p) with (fd := fd) as (fd' & p' & H); auto.
        { apply in_or_app. right. now left. }
        do 2 eexists. apply step_child. exact H.
  Qed.
  Lemma state_progress s : joined s \/ exists s', fstep w dir s s'.
  Proof.
    destruct s as [fd ps]. destruct (all_finished_or ps) as [HF|(a & p & b & -> & Np)]; auto.
    destruct (progress p Np fd) as (fd' & p' & H). right. eexists. constructor. exact H.
  Qed.

  Lemma state_acc s : Acc one_after (snd s) -> Acc (fun s' s => fstep w dir s s') s.
  Proof.
    destruct s as [fd ps]. cbn. intros H. revert fd. induction H as [ps _ IH]. intros fd. constructor. intros s' H.
    inversion H; subst. apply IH. constructor. do 2 eexists. eauto.
  Qed.
  Lemma acc_no_run s : Acc (fun s' s => fstep w dir s s') s ->
    ~ exists r : nat -> state, r 0 = s /\ forall n, fstep w dir (r n) (r (S n)).
  Proof.
    induction 1 as [s _ IH]. intros (r & <- & H). apply (IH (r 1) (H 0)). exists (fun n => r (S n)). auto.
  Qed.
  Lemma runs_first s s' s'' : fstep w dir s s' -> fruns w dir s' s'' -> fruns w dir s s''.
  Proof.
    intros H R. induction R; [eapply fruns_step; [constructor|exact H]|]. eapply fruns_step; eauto.
  Qed.
  Lemma acc_joins s : Acc (fun s' s => fstep w dir s s') s -> exists s', fruns w dir s s' /\ joined s'.
  Proof.
    induction 1 as [s _ IH]. destruct (state_progress s) as [J|(s' & H)]; [exists s; split; auto; constructor|].
    destruct (IH s' H) as (s'' & R & J). exists s''. split; auto. eapply runs_first; eauto.
  Qed.
End WithFiles.

(** ** Suffixes *)
Lemma sapp_cons a b c : (a ++ String c b)%string = ((a ++ String c "") ++ b)%string.
Proof. induction a; cbn; congruence. Qed.
Lemma ext_suffix s e : free_of "." e -> free_of "/" e -> (ext s = String "." e <-> has_suffix s (String "." e)).
Proof.
  intros H1 H2. split.
  - induction s as [|c s IH]; [discriminate|]. cbn. destruct (nonempty (ext s)) eqn:E.
    + intros H. destruct (IH H) as [stem ->]. exists (String c stem). reflexivity.
    + destruct (Ascii.eqb_spec c "."), (has_char "/" s); cbn [negb andb]; try discriminate.
      intros H. exists "". auto.
  - intros [stem ->]. assert (E0 : ext (String "." e) = String "." e).
    { cbn. assert (Ee : ext e = "").
      { clear -H1. induction e as [|c e IH]; auto. destruct H1 as [N H1]. cbn. rewrite IH by auto. cbn. destruct (Ascii.eqb_spec c "."); [contradiction|reflexivity]. }
      rewrite Ee. cbn. now rewrite (proj2 (has_char_false_iff "/" e) H2). }
    induction stem as [|c stem IH]; auto. cbn [append ext]. rewrite IH. reflexivity.
Qed.

Lemma suffix_htm s : ext s = ".htm" <-> has_suffix s ".htm".
Proof. apply (ext_suffix s "htm"); cbn; repeat split; discriminate. Qed.
Lemma suffix_xhtml s : ext s = ".xhtml" <-> has_suffix s ".xhtml".
Proof. apply (ext_suffix s "xhtml"); cbn; repeat split; discriminate. Qed.
Lemma suffix_xbrl s : ext s = ".xbrl" <-> has_suffix s ".xbrl".
Proof. apply (ext_suffix s "xbrl"); cbn; repeat split; discriminate. Qed.
Lemma suffix_xml s : ext s = ".xml" <-> has_suffix s ".xml".
Proof. apply (ext_suffix s "xml"); cbn; repeat split; discriminate. Qed.
Lemma inline_iff s : inline_name s <-> ext s = ".xhtml" \/ ext s = ".htm".
Proof. unfold inline_name. now rewrite suffix_htm, suffix_xhtml. Qed.
Lemma instance_iff s : instance_name s <-> ext s = ".xbrl" \/ ext s = ".xml".
Proof. unfold instance_name. now rewrite suffix_xml, suffix_xbrl. Qed.

(** ** Outcomes of Discover *)
Lemma instance_outcome w dir fd file i o : read_instance w (join [dir; file]) = Some i ->
  (discover_instance w dir fd file o <->
   exists s, fruns w dir (schema_ref w dir fd i) s /\ joined s /\ o = Ok (finish file i (fst s))).
Proof.
  intros H. split.
  - destruct 1 as [m E|i' s E R J]; [congruence|]. assert (i' = i) as -> by congruence. eauto.
  - intros (s & R & J & ->). now apply inst_read.
Qed.

(** The folder discovery starts from *)
Definition first_folder (w : files) (dir name : string) : folder :=
  new_folder name (match ext name with
                   | ".xhtml" | ".htm" => match read_file w (join [dir; name]) with Some data => decode_ixbrl w data | None => None end
                   | _ => None
                   end).

Lemma discover_iff w dir name images file i o : entry_instance w dir name file i ->
  (discover w dir (Ok name) images o <->
   exists s, fruns w dir (schema_ref w dir (first_folder w dir name) i) s /\ joined s /\ o = Ok (finish file i (fst s))).
Proof.
  intros (EF & EI & EH). destruct EF as [[IN ->]|[IN ->]].
  - destruct (EH IN) as (data & doc & Hd & Hdoc & Hx). apply inline_iff in IN.
    assert (FF : first_folder w dir name = new_folder name (Some doc)).
    { unfold first_folder. rewrite Hd, Hdoc. now destruct IN as [->| ->]. }
    rewrite FF, <- (instance_outcome w dir _ _ i o EI). split.
    + inversion 1 as [m E|n' o' E HE HD|n' o' E HE HD|n' E E1 E2 E3 E4]; subst.
      * discriminate.
      * injection E as <-. inversion HD; subst; try congruence.
      * injection E as <-. destruct IN, HE; congruence.
      * injection E as <-. destruct IN; congruence.
    + intros H. eapply disc_htm; eauto. eapply htm_found; eauto.
  - apply instance_iff in IN.
    assert (FF : first_folder w dir name = new_folder name None).
    { unfold first_folder. now destruct IN as [->| ->]. }
    rewrite FF, <- (instance_outcome w dir _ _ i o EI). split.
    + inversion 1 as [m E|n' o' E HE HD|n' o' E HE HD|n' E E1 E2 E3 E4]; subst.
      * discriminate.
      * injection E as <-. destruct IN, HE; congruence.
      * injection E as <-. exact HD.
      * injection E as <-. destruct IN; congruence.
    + intros H. eapply disc_xml; eauto.
Qed.

Lemma first_sound w dir name refs : fsound w dir refs (first_folder w dir name).
Proof.
  unfold fsound, first_folder, new_folder. cbn.
  split; [split; [constructor|intros ? ? []]|]. split; [split; [constructor|intros ? ? []]|].
  intros []; cbn; (split; [constructor|intros ? ? []]).
Qed.

(** What holds when the references have been followed *)
Lemma outcome_sound w dir name i s : fruns w dir (schema_ref w dir (first_folder w dir name) i) s ->
  fsound w dir (if_schemaRef i) (fst s).
Proof.
  intros R. eapply runs_sound in R; [apply R|apply first_sound|]. cbn. apply Forall_forall. intros p Hp.
  apply in_map_iff in Hp as (e & <- & HI). now apply ref_sound.
Qed.
Lemma outcome_settled w dir fd i s e : fruns w dir (schema_ref w dir fd i) s -> joined s ->
  start_owes w dir (if_schemaRef i) e -> settled (fst s) e.
Proof.
  intros R J (d & Hd & Ho). eapply joined_settled; eauto. left. exists (Run d). split; [|now constructor].
  cbn. apply in_map_iff in Hd as (x & <- & HI). apply in_map_iff. eauto.
Qed.

Lemma followed_file w dir refs h f : followed (url_of w) (schema_of w dir) refs h f -> schema_of w dir h f /\ ~ url_of w h.
Proof. destruct 1; auto. Qed.
Lemma followed_linkbase_file w dir refs k h l :
  followed_linkbase (url_of w) (schema_of w dir) (linkbase_of w dir) refs k h l -> linkbase_of w dir k h l.
Proof. intros (h0 & g & _ & _ & _ & H). exact H. Qed.

Lemma outcome_exact w dir name images file i fd : entry_instance w dir name file i -> discover w dir (Ok name) images (Ok fd) ->
  (forall h f, In (h, f) (fdSchemas fd) <-> followed (url_of w) (schema_of w dir) (if_schemaRef i) h f) /\
  (forall k h l, In (h, l) (holds_linkbases fd k) <->
     followed_linkbase (url_of w) (schema_of w dir) (linkbase_of w dir) (if_schemaRef i) k h l) /\
  (forall ns h, In (ns, h) (fdNamespaces fd) -> claims (url_of w) (schema_of w dir) (if_schemaRef i) ns h) /\
  (forall ns h, claims (url_of w) (schema_of w dir) (if_schemaRef i) ns h -> exists h', In (ns, h') (fdNamespaces fd)) /\
  is_map (fdNamespaces fd) /\ is_map (fdSchemas fd) /\ (forall k, is_map (holds_linkbases fd k)).
Proof.
  intros EI D. apply (discover_iff _ _ _ _ _ _ _ EI) in D as (s & R & J & [= ->]).
  pose proof (outcome_sound _ _ _ _ _ R) as ((M1 & S1) & (M2 & S2) & S3).
  pose proof (fun e => outcome_settled _ _ _ _ _ e R J) as O.
  assert (HK : forall k, holds_linkbases (finish file i (fst s)) k = holds_linkbases (fst s) k) by (intros []; reflexivity).
  split; [|split; [|split; [|split; [|split; [|split]]]]]; auto.
  - intros h f. split; [apply S2|]. intros F. specialize (O _ (followed_owed _ _ _ _ _ F)). cbn in O |- *.
    destruct (sget h (fdSchemas (fst s))) as [f'|] eqn:E; [|contradiction]. apply sget_In in E.
    destruct (followed_file _ _ _ _ _ F) as [F1 _]. destruct (followed_file _ _ _ _ _ (S2 _ _ E)) as [F2 _].
    unfold schema_of in *. now assert (f' = f) as <- by congruence.
  - intros k h l. rewrite HK. split; [apply S3|]. intros F. specialize (O _ (linkbase_owed _ _ _ _ _ _ F)). cbn in O.
    destruct (sget h (holds_linkbases (fst s) k)) as [l'|] eqn:E; [|contradiction]. apply sget_In in E.
    assert (F1 := followed_linkbase_file _ _ _ _ _ _ F). assert (F2 := followed_linkbase_file _ _ _ _ _ _ (proj2 (S3 k) _ _ E)).
    unfold linkbase_of in *. now assert (l' = l) as <- by congruence.
  - intros ns h C. specialize (O _ (claim_owed _ _ _ _ _ C)). cbn in O |- *.
    destruct (sget ns (fdNamespaces (fst s))) as [h'|] eqn:E; [|contradiction]. exists h'. now apply sget_In.
  - intros k. rewrite HK. apply S3.
Qed.

(** Termination *)
Lemma acyclic_acc w dir i fd : acyclic (url_of w) (schema_of w dir) (if_schemaRef i) ->
  Acc (fun s' s => fstep w dir s s') (schema_ref w dir fd i).
Proof.
  intros A. apply state_acc. cbn. apply list_acc. apply Forall_forall. intros p Hp. apply in_map_iff in Hp as (e & <- & HI).
  assert (HS := ref_sound w dir (if_schemaRef i) e HI).
  apply run_acc.
  - apply (start_content w dir (if_schemaRef i)). now apply in_map.
  - intros h. induction (schema_ref_body w dir e) as [|ns h' next IH|h' f'|k h' l]; cbn in *; try discriminate.
    + intros H. apply IH; tauto.
    + intros [= <-]. eapply A; eauto.
Qed.

Lemma joined_acyclic w dir fd i s : fruns w dir (schema_ref w dir fd i) s -> joined s ->
  acyclic (url_of w) (schema_of w dir) (if_schemaRef i).
Proof.
  intros R J. apply runs_back in R as [_ F].
  - cbn in F. intros h f H. rewrite Forall_forall in F.
    induction H as [h f ns H1 H2 H3 H4|g h0 h f ns FL IH H1 H2 H3 H4|g h0 h f ns FL IH H1 H2 H3].
    + assert (HI := ref_start w dir (if_schemaRef i) h f ns H1 H2 H3 H4). apply in_map_iff in HI as (e & E & HI).
      assert (HP : pfin w dir (Run (schema_ref_body w dir e))) by (apply F; apply in_map_iff; eauto).
      rewrite E in HP. apply HP. reflexivity.
    + destruct IH as [IH]. apply IH. destruct (followed_file _ _ _ _ _ FL). exists g, f. split; auto. split; auto. split; auto. left. eauto.
    + destruct IH as [IH]. apply IH. destruct (followed_file _ _ _ _ _ FL). exists g, f. split; auto. split; auto. split; auto. right. eauto.
  - cbn. apply Forall_forall. intros p Hp. apply in_map_iff in Hp as (e & <- & HI).
    apply (start_content w dir (if_schemaRef i)). now apply in_map.
  - eapply Forall_impl; [|exact J]. intros p <-. exact I.
Qed.

(** ** All steps of a state, for small examples *)
Section Successors.
  Open Scope list_scope.
  Variable w : files.
  Variable dir : string.
  Fixpoint psucc (fd : folder) (p : proc) : list (folder * proc) :=
    match p with
    | Run Stop => [(fd, Finished)]
    | Run (Claim ns h next) => [(set_namespace ns h fd, Run next)]
    | Run (Load h f) => [(fd, Wait (map Run (children w dir f)) h f)]
    | Run (Store k h l) => [(set_linkbase k h l fd, Finished)]
    | Wait ps h f =>
        (if forallb (fun p => match p with Finished => true | _ => false end) ps then [(set_schema h f fd, Finished)] else []) ++
        (fix go (pre ps : list proc) : list (folder * proc) :=
           match ps with
           | [] => []
           | p :: b => map (fun r => (fst r, Wait (pre ++ snd r :: b) h f)) (psucc fd p) ++ go (pre ++ [p])%list b
           end) [] ps
    | Finished => []
    end.
  Fixpoint lsucc (fd : folder) (pre ps : list proc) : list state :=
    match ps with
    | [] => []
    | p :: b => map (fun r => (fst r, pre ++ snd r :: b)%list) (psucc fd p) ++ lsucc fd (pre ++ [p])%list b
    end.

  Lemma psucc_In fd p fd' p' : pstep w dir fd p fd' p' -> In (fd', p') (psucc fd p).
  Proof.
    induction 1 as [fd|fd ns h next|fd h f|fd k h l|fd fd' a p p' b h f H IH|fd ps h f HF]; cbn; auto.
    - apply in_or_app. right. change (Wait (a ++ p' :: b) h f) with (Wait (([] ++ a) ++ p' :: b) h f).
      match goal with |- In _ (?go [] _) => set (g := go) end. set (pre := @nil proc) at 1 2. clearbody pre. revert pre.
      induction a as [|q a IHa]; intros pre; cbn.
      + apply in_or_app. left. apply in_map_iff. exists (fd', p'). split; auto. cbn. now rewrite app_nil_r.
      + apply in_or_app. right. specialize (IHa (pre ++ [q])%list). now rewrite <- (app_assoc pre [q] a) in IHa.
    - apply in_or_app. left. replace (forallb _ ps) with true; [now left|]. symmetry. apply forallb_forall. intros p Hp.
      rewrite Forall_forall in HF. now rewrite <- (HF p Hp).
  Qed.
  Lemma lsucc_In s s' : fstep w dir s s' -> In s' (lsucc (fst s) [] (snd s)).
  Proof.
    destruct 1 as [fd fd' a p p' b H]. cbn [fst snd]. apply psucc_In in H.
    change (a ++ p' :: b)%list with (([] ++ a) ++ p' :: b)%list. set (pre := @nil proc) at 1 2. clearbody pre. revert pre.
    induction a as [|q a IHa]; intros pre; cbn.
    - apply in_or_app. left. apply in_map_iff. exists (fd', p'). split; auto. cbn. now rewrite app_nil_r.
    - apply in_or_app. right. specialize (IHa (pre ++ [q])%list). now rewrite <- (app_assoc pre [q] a) in IHa.
  Qed.
  Lemma closed_runs (S : list state) s s' : (forall x, In x S -> forall y, In y (lsucc (fst x) [] (snd x)) -> In y S) ->
    In s S -> fruns w dir s s' -> In s' S.
  Proof. intros C HI R. induction R as [|s s' s'' R IH H]; auto. apply (C s'); auto. now apply lsucc_In. Qed.
End Successors.

(** ** Running forwards *)
Lemma leaf_runs w dir s0 fd a b ns h f : children w dir f = [] ->
  fruns w dir s0 (fd, (a ++ Run (Claim ns h (Load h f)) :: b)%list) ->
  fruns w dir s0 (set_schema h f (set_namespace ns h fd), (a ++ Finished :: b)%list).
Proof.
  intros E R. eapply fruns_step; [|constructor; apply (step_joined w dir (set_namespace ns h fd) [] h f); constructor].
  eapply fruns_step.
  2:{ constructor. replace (@nil proc) with (map Run (children w dir f)) by now rewrite E. apply step_load. }
  eapply fruns_step; [exact R|]. constructor. constructor.
Qed.
