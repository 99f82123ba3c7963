(** * NetworkProps: C129 (from the linkbases of a report on disk to the rows and labels a client reads) *)
From Verif Require Import GoBase GoSpec GoFacts AttrModel AttrSpec AttrProofs SchemaModel SchemaSpec SchemaProofs SchemaProps
  LinkbaseModel LinkbaseSpec LinkbaseProofs LinkbaseProps InstanceModel InstanceSpec InstanceProofs InstanceProps
  HydrateModel HydrateSpec HydrateProofs HydrateProps LabelModel LabelSpec LabelProofs LabelProps PeriodModel PeriodSpec PeriodProofs PeriodProps
  FactModel FactSpec FactProofs FactProps GridModel GridSpec GridProofs GridProps CalcModel CalcSpec CalcProofs CalcProps DefModel DefSpec DefProofs DefProps
  RenderModel RenderSpec RenderProofs RenderProps
  DiscoverModel DiscoverSpec DiscoverProofs DiscoverProps XmlModel XmlSpec XmlProofs XmlProps LoadModel LoadSpec LoadProofs LoadProps
  CatalogModel CatalogSpec CatalogProofs CatalogProps ReportModel ResponseModel ResponseSpec ResponseProofs ResponseProps EndToEndSpec EndToEndProps ReportSpec ReportProofs ReportProps NetworkSpec.
Local Open Scope string_scope.

(** ** Networks of a document *)
Lemma those_filter {A} (P : A -> Prop) (f : A -> bool) : (forall x, f x = true <-> P x) -> forall l, those P l (filter f l).
Proof.
  intros H l. induction l as [|x l IH]; cbn [filter]; [constructor|]. destruct (f x) eqn:E.
  - constructor; auto. now apply H.
  - constructor; auto. intro C. apply H in C. congruence.
Qed.
Lemma filter_one {A} (f : A -> string) (l : list A) k : NoDup (map f l) -> In k l ->
  filter (fun x => if string_dec (f x) (f k) then true else false) l = [k].
Proof.
  induction l as [|x l IH]; intros N []; inversion N as [|? ? N1 N2]; subst; cbn [filter].
  - destruct (string_dec (f k) (f k)); [|congruence]. f_equal.
    assert (E : forall l, ~ In (f k) (map f l) -> filter (fun x => if string_dec (f x) (f k) then true else false) l = []).
    { clear. induction l as [|y l IH]; intro H; cbn [filter]; auto. destruct (string_dec (f y) (f k)) as [E|]; [|apply IH; intro; apply H; simpl; auto].
      elim H. simpl. auto. }
    now apply E.
  - destruct (string_dec (f x) (f k)) as [E|]; [|auto]. elim N1. rewrite E. now apply in_map.
Qed.
Section Document.
  Context {arc : Type}.
  Variable link_name : string.
  Variable arc_name : string.
  Variable is_a : elem -> arc -> Prop.
  Variable t : tree.
  Variable lb : linkbase arc.
  Hypothesis W : links_as_written link_name arc_name is_a t lb.

  Lemma network_declared role : has_network role lb -> has_network_at link_name arc_name is_a t role.
  Proof.
    destruct W as (RR&links&I&N&R&_). intros [(rr&Hr&Er) (k&Hk&Ek)]. split.
    - apply (image_of_In _ _ _ _ RR) in Hr as (x&Hx&Rx). eauto.
    - assert (H : In role (map lRole links)) by (apply R; rewrite <- Ek; now apply in_map).
      apply in_map_iff in H as (l&El&Hl). apply (image_of_In _ _ _ _ I) in Hl as (x&Hx&Rx). eauto.
  Qed.
  Lemma declared_network role : has_network_at link_name arc_name is_a t role -> has_network role lb.
  Proof.
    destruct W as (RR&links&I&N&R&_). intros [(x&rr&Hx&Rx&Er) (y&l&Hy&Ry&El)]. split.
    - destruct (image_In_r _ _ _ _ RR Hx (ex_intro _ rr Rx)) as (rr'&Hr&Rr). exists rr'. split; auto.
      destruct Rx as (?&?&?&->&R1), Rr as (?&?&?&E&R2). injection E as <- <- <-. rewrite <- Er.
      eapply required_fun; [apply R2|apply R1].
    - destruct (image_In_r _ _ _ _ I Hy (ex_intro _ l Ry)) as (l'&Hl&Rl).
      assert (F : lRole l = lRole l') by (eapply required_fun; [apply Ry|apply Rl]).
      assert (H : In role (map lRole (lbLinks lb))) by (apply R; rewrite <- El, F; now apply in_map).
      apply in_map_iff in H as (k&Ek&Hk). eauto.
  Qed.
  Lemma network_read role k : In k (lbLinks lb) -> lRole k = role -> network_at link_name arc_name is_a t role (lLocs k) (lArcs k).
  Proof.
    destruct W as (_&links&I&N&R&L). intros Hk <-. destruct (L _ Hk) as [E1 E2].
    exists links, (filter (fun x => String.eqb (lRole x) (lRole k)) links). split; auto. split; [|auto].
    apply those_filter. intro x. apply String.eqb_eq.
  Qed.
  Lemma locates_finds role k label href : has_network role lb -> In k (lbLinks lb) -> lRole k = role ->
    (locates lb role label href <-> finds (lLocs k) label href).
  Proof.
    destruct W as (_&links&I&N&_). intros [(rr&Hr&Er) _] Hk <-. unfold locates, finds, role_locators.
    rewrite (filter_one lRole (lbLinks lb) k N Hk). cbn [flat_map]. rewrite app_nil_r.
    assert (D : declares lb (lRole k)) by (rewrite <- Er; now apply in_map). tauto.
  Qed.
End Document.

(** ** What is read of a report *)

(** The conditions of C105 and C108: no element of another namespace is named like one of
    theirs, and labels contain no elements. *)
Definition plain_books (d : disk) (dir : string) (root : tree) : Prop :=
  (forall x t, linkbase_at d dir root Presentation x t -> own_links t "presentationLink" ["loc"; "presentationArc"]) /\
  (forall x t, linkbase_at d dir root Calculation x t -> own_links t "calculationLink" ["loc"; "calculationArc"]) /\
  (forall x t, linkbase_at d dir root Labels x t -> own_links t "labelLink" ["loc"; "label"; "labelArc"] /\ plain_labels t).
(** what has been read of each kind of linkbase *)
Definition read_as {B} (d : disk) (dir : string) (root : tree) (k : kind) (W : tree -> B -> Prop) (m : list (string * B)) : Prop :=
  (forall lb, In lb (map snd m) -> exists x t, linkbase_at d dir root k x t /\ W t lb) /\
  (forall x t, linkbase_at d dir root k x t -> exists lb, In lb (map snd m) /\ W t lb).
Lemma linkbase_fun d dir root k x t t' : linkbase_at d dir root k x t -> linkbase_at d dir root k x t' -> t = t'.
Proof. intros (?&?&_&_&L) (?&?&_&_&L'). eapply local_fun; eauto. Qed.
Lemma books_read d dir name images pf sh tokens utr h : orders sh -> supported name -> loaded d dir name images pf sh tokens utr h ->
  exists file root, entry_at d dir root name file /\ (plain_books d dir root ->
    read_as d dir root Presentation (links_as_written "presentationLink" "presentationArc" (is_presentation_arc pf)) (hPresentation h) /\
    read_as d dir root Calculation (links_as_written "calculationLink" "calculationArc" (is_calculation_arc pf)) (hCalculation h) /\
    read_as d dir root Labels (labels_as_written pf) (hLabel h)).
Proof.
  intros O N L. destruct (C116_networks_partial _ _ _ _ _ _ _ _ _ O N L) as (file&root&EA&HP&_&HC&HL).
  destruct (C114_documents _ _ _ _ _ _ _ _ _ N L) as (file'&root'&EA'&_&_&K).
  assert (root' = root) as -> by (eapply entry_root; eauto).
  exists file, root. split; auto. intros (PP&PC&PL).
  assert (G : forall B k (W : tree -> B -> Prop) (m : list (string * B)),
    (forall x lb, In (x, lb) m -> exists t, linkbase_at d dir root k x t /\ W t lb) ->
    (forall x t, linkbase_at d dir root k x t -> In x (map fst m)) -> read_as d dir root k W m).
  { intros B k W m A1 A2. split.
    - intros lb Hl. apply in_map_iff in Hl as ([x lb']&<-&Hl). exists x. auto.
    - intros x t T. pose proof (A2 _ _ T) as Hx. apply in_map_iff in Hx as ([x' lb]&<-&Hl). cbn [fst] in T.
      exists lb. split; [now apply (in_map snd) in Hl|]. destruct (A1 _ _ Hl) as (t'&T'&Wt). now rewrite (linkbase_fun _ _ _ _ _ _ _ T T'). }
  split; [|split]; apply G.
  - intros x lb H. destruct (HP _ _ H) as (t&T&Wt). eauto.
  - intros x t T. apply (K Presentation). eauto.
  - intros x lb H. destruct (HC _ _ H) as (t&T&Wt). eauto.
  - intros x t T. apply (K Calculation). eauto.
  - intros x lb H. destruct (HL _ _ H) as (t&T&Wt). exists t. split; auto. apply Wt; now apply (PL x).
  - intros x t T. apply (K Labels). eauto.
Qed.

(** labels *)
Lemma label_seen d dir root pf h lbl href v : read_as d dir root Labels (labels_as_written pf) (hLabel h) -> labels_from h lbl ->
  labels (lbl href) v -> label_shown d dir root pf href v.
Proof.
  intros [R1 R2] LF V. destruct (LF href) as (ls&VI&E). rewrite E in V. exists ls, (get_label ls href). split; [|split; [|split]]; auto.
  - split.
    + intros lb Hl. apply R1. now apply (Permutation_in _ VI).
    + intros x t T. destruct (R2 _ _ T) as (lb&Hl&Wt). exists lb. split; auto. now apply (Permutation_in _ (Permutation_sym VI)).
  - apply get_label_is_pack.
  - intros role lang text. apply C34_texts.
Qed.

(** concepts *)
Lemma concept_seen d dir root fd order href c :
  (forall h f, In (h, f) (fdSchemas fd) <-> exists t, followed_at d dir root h t /\ f = schema_struct t) ->
  (forall h t, known d dir root h t -> plain_declarations t) -> qenv_ok (env_of fd (d_url d) (global_schema_file d)) ->
  ((exists k, hash_query order (env_of fd (d_url d) (global_schema_file d)) href = Ok (k, c)) <-> concept_with_id d dir root href c).
Proof.
  intros S P Q. rewrite C49_hash_query by exact Q. split.
  - intros (b&i&f&cs&E&F&N1&N2&D&C&FS). pose proof (first_such_In _ _ _ FS) as [Hc _].
    apply (document_iff d dir root fd S b f c cs C Hc) in D as (t&K&->). apply concepts_of_iff in C; eauto. exists b, i, t, cs. auto 10.
  - intros (b&i&t&cs&E&F&N1&N2&K&C&FS). pose proof (first_such_In _ _ _ FS) as [Hc _].
    apply concepts_of_iff in C; eauto. exists b, i, (schema_struct t), cs. repeat (split; auto).
    apply (document_iff d dir root fd S b _ c cs C Hc). eauto.
Qed.

(** ** The answer *)
Lemma p_rows w h entity role p pg roles langs : p_grids w h entity role p -> p = Ok (pg, roles, langs) ->
  exists lbl lbs packs, labels_from h lbl /\ visited (hPresentation h) lbs /\ get_indented_labels (o_tree w) lbl role lbs = (pgLabels pg, packs).
Proof.
  intros (lbl&g&lbs&L&_&V&->). unfold p_grid_of.
  destruct (get_indented_labels _ _ _ _) as [ls packs] eqn:EL.
  destruct (get_relevant_contexts _ _ _ _ _ _ _) as [[[[cols seg] scen] cp]| |]; cbn [bind]; try discriminate.
  destruct (ge_destruct _ _) as [rs lg].
  destruct (get_factual_quadrant _ _ _ _ _ _ _) as [[[f g0] n]| |]; cbn [bind]; try discriminate.
  destruct (get_member_grid _ _ _ _) as [[m v]| |]; cbn [bind]; try discriminate.
  intros [= <- _ _]. cbn [pgLabels]. eauto 10.
Qed.
Lemma linked_iff role lbs : linked role lbs = true <-> exists lb, In lb lbs /\ has_network role lb.
Proof.
  unfold linked. rewrite calc_link_eq by (intros ? []). destruct (first_link role lbs) as [[lb k]|] eqn:F.
  - split; auto. intros _. destruct (first_link_shown _ _ _ _ F) as [S _]. apply first_such_In in S. eauto.
  - split; [discriminate|]. intros (lb&I&H). exfalso. revert lb I H F. induction lbs as [|l rest IH]; intros lb I; cbn [first_link]; intros H F; [destruct I|]. destruct I as [->|I].
    + apply has_networkP in H. destruct (if existsb _ _ then _ else _); [discriminate F|now apply H].
    + destruct (if existsb _ _ then _ else _); [discriminate F|]. eapply IH; eauto.
Qed.
Lemma Forall2_through {A B C} (R : A -> B -> Prop) (S : B -> C -> Prop) (T : A -> C -> Prop) l m n :
  (forall a b c, R a b -> S b c -> T a c) -> Forall2 R l m -> Forall2 S m n -> Forall2 T l n.
Proof. intros H F. revert n. induction F; intros n G; inversion G; subst; constructor; eauto. Qed.
Lemma image_through {A B C} (R : A -> B -> Prop) (S : B -> C -> Prop) (T : A -> C -> Prop) l m n :
  (forall a b c, R a b -> S b c -> T a c) -> (forall a c, T a c -> exists b, R a b) -> image_of R l m -> Forall2 S m n -> image_of T l n.
Proof.
  intros H K I. revert n. induction I; intros n G; [inversion G; constructor|inversion G; subst; constructor; eauto|].
  constructor; auto. intros y Ty. apply K in Ty as (b&Rb). eapply H0; eauto.
Qed.
Ltac fields := cbn; repeat constructor; simpl; intuition congruence.

(** C129: whatever network a client asks for, the rows of the presentation grid are the
    outline of the arcs that a linkbase of the report has for the role, each with its concept,
    its depth and its labels. *)
Theorem C129_presentation_partial :
  forall d dir name images pf sh tokens utr h, orders sh -> supported name -> loaded d dir name images pf sh tokens utr h ->
  exists file root, entry_at d dir root name file /\
    (plain_books d dir root ->
     forall w slug bytes,
       (forall x t role locs arcs, linkbase_at d dir root Presentation x t -> presentation_in pf t role locs arcs ->
          orders_are_numbers (outline (o_tree w) arcs)) ->
       marshalled_renderable w h slug (Ok (Some bytes)) ->
       exists e r v, is_slug e r slug /\ reads_as bytes v /\ has v "RelationshipSet" (relationship_set r) /\
         the_member v "PGrid" (rows_shown d dir root pf (o_tree w) (rsRole r))).
Proof.
  intros d dir name images pf sh tokens utr h O N L.
  destruct (books_read _ _ _ _ _ _ _ _ _ O N L) as (file&root&EA&BR). exists file, root. split; auto.
  intros PB w slug bytes NN M. destruct (BR PB) as ([RP1 RP2]&_&RL).
  destruct (done_parts _ _ _ _ M) as (insts&schemas&e&r&p&dg&c&conf&nm&VI&VS&FS&PG&_&_&NP&_&_&->).
  destruct (rendered (o_spanish w) p dg c conf) as [[g roles] langs] eqn:ER.
  destruct (C119_renderable (linked (rsRole r) (map snd (hCalculation h))) r (Subject nm e) g roles langs) as (v&J&V).
  unfold rendered in ER. injection ER as EG _ EL. apply first_such_In in FS as [_ SL]. cbn [fst snd] in SL.
  exists e, r, v. split; auto. split; auto. split.
  { apply the_member_has. eapply (the_member_of _ _ "RelationshipSet"); [exact V|fields|left; reflexivity]. }
  destruct p as [[[pg rs] ls]|m|]; [|exfalso; exact (p_no_error _ _ _ _ _ PG m eq_refl)|congruence].
  eapply the_member_impl; [|eapply (the_member_of _ _ "PGrid"); [exact V|fields|do 4 right; left; reflexivity]].
  rewrite <- EG. cbn [gdP grid_or]. intros u U. unfold p_grid_value in U. cbn [format_p pgLabels pgPeriods pgMembers pgVoid pgFacts pgFootnoteGrid pgFootnotes] in U.
  destruct (p_rows _ _ _ _ _ _ _ _ PG eq_refl) as (lbl&lbs&packs&LF&VL&GI).
  assert (IN : forall lb, In lb lbs <-> In lb (map snd (hPresentation h))) by (intro lb; split; apply Permutation_in; [|symmetry]; exact VL).
  assert (IL : the_member u "IndentedLabels" (list_of (row_value "Indentation") (pgLabels pg))).
  { eapply (the_member_of _ _ "IndentedLabels"); [exact U|fields|left; reflexivity]. }
  apply C23_outline in GI.
  2:{ intros lb k Hlb Hk. apply IN in Hlb. destruct (RP1 _ Hlb) as (x&t&T&W). eapply NN; [exact T|]. exact (network_read _ _ _ _ _ W _ _ Hk eq_refl). }
  destruct GI as [[NL EN]|(lb&k&out&F1&F2&PO&_&FR)].
  - left. split.
    + intros x t T C. destruct (RP2 _ _ T) as (lb&Hl&W). apply IN in Hl. apply (NL lb Hl). exact (declared_network _ _ _ _ _ W _ C).
    + rewrite EN in IL. eapply the_member_impl; [|exact IL]. intros y (vs&->&F). inversion F. exists []. split; auto.
  - right. apply first_such_In in F1 as [Hlb HN]. apply first_such_In in F2 as [Hk Rk]. pose proof Hlb as Hlb'. apply IN in Hlb'. destruct (RP1 _ Hlb') as (x&t&T&W).
    exists x, t, (lLocs k), (lArcs k), out. split; auto. split; [exact (network_declared _ _ _ _ _ W _ HN)|].
    split; [exact (network_read _ _ _ _ _ W _ _ Hk Rk)|]. split; [exact PO|].
    eapply the_member_impl; [|exact IL]. intros y (vs&->&F). exists vs. split; auto.
    eapply Forall2_through; [|exact FR|exact F]. cbn beta. intros a b z (LO&IN'&LB) RV.
    exists (ilHref b). split; [now apply (locates_finds _ _ _ _ _ W _ _ _ _ HN Hk Rk)|]. split; [|split].
    + eapply row_href; [| |exact RV]; discriminate.
    + rewrite <- IN'. eapply (the_member_of _ _ "Indentation"); [exact RV|fields|do 2 right; left; reflexivity].
    + eapply the_member_impl; [|eapply (the_member_of _ _ "Label"); [exact RV|fields|right; left; reflexivity]].
      rewrite LB. intros z' Z. eapply label_seen; eauto.
Qed.
Print Assumptions C129_presentation_partial.

(** The totals of the calculation grid are the sources of the summation arcs that a linkbase of
    the report has for the role, each with its arcs in order: target, sign and scale of the
    weight, balance and labels. *)
Theorem C129_calculation_partial :
  forall d dir name images pf sh tokens utr h, orders sh -> supported name -> loaded d dir name images pf sh tokens utr h ->
  exists file root, entry_at d dir root name file /\
    (plain_books d dir root -> (forall x t, known d dir root x t -> plain_declarations t) ->
     (forall x t role locs arcs a, linkbase_at d dir root Calculation x t -> calculation_in pf t role locs arcs -> In a arcs ->
        caOrder a <> S754_nan) ->
     forall w slug bytes, o_url w = d_url d -> o_schema w = global_schema_file d ->
       marshalled_renderable w h slug (Ok (Some bytes)) ->
       exists e r v, is_slug e r slug /\ reads_as bytes v /\ has v "RelationshipSet" (relationship_set r) /\
         the_member v "CGrid" (sums_shown d dir root pf (rsRole r))).
Proof.
  intros d dir name images pf sh tokens utr h O N L.
  destruct (books_read _ _ _ _ _ _ _ _ _ O N L) as (file&root&EA&BR). exists file, root. split; auto.
  intros PB PD NN w slug bytes OU OS M. destruct (BR PB) as (_&[RC1 RC2]&RL).
  assert (CS : forall href c, concept_for w h href = Some c <-> concept_with_id d dir root href c).
  { destruct (loaded_parts _ _ _ _ _ _ _ _ _ N L) as (file'&root'&fd&doc&EA'&_&S&_&_&_&M1&M2&_&_&_&H).
    assert (root' = root) as -> by (eapply entry_root; eauto). apply C79_complete in H as (HF&_).
    intros href c. rewrite <- (concept_seen d dir root fd (fdNamespaces fd) href c S PD (conj M1 M2)). unfold concept_for. rewrite HF, OU, OS.
    destruct (hash_query _ _ _) as [[k c']|m|]; split; intro E.
    - injection E as ->. eauto.
    - destruct E as (k'&E). now injection E as _ ->.
    - discriminate E.
    - destruct E as (k'&E). discriminate E.
    - discriminate E.
    - destruct E as (k'&E). discriminate E. }
  destruct (done_parts _ _ _ _ M) as (insts&schemas&e&r&p&dg&c&conf&nm&VI&VS&FS&_&_&CG&_&_&NC&->).
  destruct (rendered (o_spanish w) p dg c conf) as [[g roles] langs] eqn:ER.
  destruct (C119_renderable (linked (rsRole r) (map snd (hCalculation h))) r (Subject nm e) g roles langs) as (v&J&V).
  unfold rendered in ER. injection ER as EG _ EL. apply first_such_In in FS as [_ SL]. cbn [fst snd] in SL.
  exists e, r, v. split; auto. split; auto. split.
  { apply the_member_has. eapply (the_member_of _ _ "RelationshipSet"); [exact V|fields|left; reflexivity]. }
  destruct c as [[[items rs] ls]|m|]; [|exfalso; exact (c_no_error _ _ _ _ _ CG m eq_refl)|congruence].
  eapply the_member_impl; [|eapply (the_member_of _ _ "CGrid"); [exact V|fields|do 6 right; left; reflexivity]].
  rewrite <- EG. cbn [gdC grid_or]. intros u U.
  destruct CG as (lbl&genv&order&lbs&LF&_&PO&VL&GI). symmetry in GI.
  assert (IN : forall lb, In lb lbs <-> In lb (map snd (hCalculation h))) by (intro lb; split; apply Permutation_in; [|symmetry]; exact VL).
  assert (SI := the_member_of _ _ "SummationItems" _ U ltac:(fields) (or_introl eq_refl)).
  apply C25_items in GI; auto.
  2:{ intro href. destruct (LF href) as (ll&_&E). eauto. }
  2:{ intros lb k a Hlb Hk Ha. apply IN in Hlb. destruct (RC1 _ Hlb) as (x&t&T&W). eapply NN; [exact T|exact (network_read _ _ _ _ _ W _ _ Hk eq_refl)|exact Ha]. }
  destruct GI as [[NL EN]|(lb&k&[F1 F2]&ND&HR&HI)].
  - left. split.
    + intros x t T C. destruct (RC2 _ _ T) as (lb&Hl&W). apply IN in Hl. apply (NL lb Hl). exact (declared_network _ _ _ _ _ W _ C).
    + destruct (linked _ _) eqn:LK; [|eapply the_member_impl; [|exact SI]; auto].
      exfalso. apply linked_iff in LK as (lb&Hl&HN). apply IN in Hl. exact (NL lb Hl HN).
  - right. apply first_such_In in F1 as [Hlb HN]. apply first_such_In in F2 as [Hk Rk]. pose proof Hlb as Hlb'. apply IN in Hlb'. destruct (RC1 _ Hlb') as (x&t&T&W).
    assert (LFI : forall label href, locates lb (rsRole r) label href <-> finds (lLocs k) label href)
      by (intros; exact (locates_finds _ _ _ _ _ W _ _ _ _ HN Hk Rk)).
    assert (SF : forall href a, arc_from (rsRole r) lb href a <-> sums_from (lLocs k) href a)
      by (intros; unfold arc_from, sums_from; now rewrite LFI).
    assert (SO : forall href, is_source (rsRole r) lb k href <-> exists a, In a (lArcs k) /\ sums_from (lLocs k) href a).
    { intro href. split; intros (a&Ha&A); exists a; (split; [auto|]); now apply SF. }
    exists x, t, (lLocs k), (lArcs k), (map siHref items). split; auto. split; [exact (network_declared _ _ _ _ _ W _ HN)|].
    split; [exact (network_read _ _ _ _ _ W _ _ Hk Rk)|]. split; [exact ND|]. split.
    { intro href. rewrite HR, SO. apply and_iff_compat_l. split.
      - intro C. destruct (concept_for w h href) as [c|] eqn:E; [|congruence]. exists c. now apply CS.
      - intros (c&C) E. apply CS in C. congruence. }
    assert (LK : linked (rsRole r) (map snd (hCalculation h)) = true) by (apply linked_iff; eauto).
    rewrite LK in SI. eapply the_member_impl; [|exact SI]. intros y (vs&->&F). exists vs. split; auto.
    clear - F HI CS SF SO LFI RL L O N LF PB.
    revert vs F. induction items as [|s items IH]; intros vs F; inversion F as [|s' z items' vs' IV F']; subst; [constructor|]. cbn [map].
    constructor; [clear IH F F'|apply IH; [intros; apply HI; now right|exact F']].
    cbn [format_item siHref siLabel siBalance siContributing] in IV. unfold item_value in IV. cbn [format_item siHref siLabel siBalance siPeriods siMembers siVoid siContributing siFacts siFootnoteGrid siFootnotes] in IV.
    assert (Hs : In s (s :: items)) by now left.
    destruct (HI s Hs) as ((_&LB&c&Cc&BA)&(arcs&sorted&TH&SS&IM)).
    exists c, arcs, sorted. split; [now apply CS|]. split.
    { revert TH. clear -SF. induction 1; constructor; auto; [now apply SF|]. intro C. apply SF in C. auto. }
    split; auto. split; [eapply (the_member_of _ _ "Href"); [exact IV|fields|left; reflexivity]|]. split; [|split].
    + eapply the_member_impl; [|eapply (the_member_of _ _ "Label"); [exact IV|fields|right; left; reflexivity]].
      rewrite LB. intros z' Z. eapply label_seen; eauto.
    + rewrite <- BA. eapply (the_member_of _ _ "BalanceType"); [exact IV|fields|do 2 right; left; reflexivity].
    + eapply the_member_impl; [|eapply (the_member_of _ _ "ContributingConcepts"); [exact IV|fields|do 6 right; left; reflexivity]].
      intros y (us&->&F). exists us. split; auto. eapply image_through; [| |exact IM|exact F].
      * intros a b z' (L1&(t'&C1&B1)&L2&SG&SC&IS) CV. exists (ccHref b), t', (ccSign b), (ccScale b), (ccIsSummation b).
        split; [now apply LFI|]. split; [now apply CS|]. split; auto. split; auto. split; [rewrite IS; apply SO|].
        split; [eapply (the_member_of _ _ "Href"); [exact CV|fields|do 3 right; left; reflexivity]|]. split.
        { eapply the_member_impl; [|eapply (the_member_of _ _ "Label"); [exact CV|fields|do 4 right; left; reflexivity]].
          rewrite L2. intros z'' Z. eapply label_seen; eauto. }
        rewrite <- B1. split; [eapply (the_member_of _ _ "BalanceType"); [exact CV|fields|do 2 right; left; reflexivity]|].
        split; [eapply (the_member_of _ _ "Sign"); [exact CV|fields|left; reflexivity]|].
        split; [eapply (the_member_of _ _ "Scale"); [exact CV|fields|right; left; reflexivity]|].
        eapply (the_member_of _ _ "IsSummationItem"); [exact CV|fields|do 5 right; left; reflexivity].
      * intros a z' (href&c'&sg&sc&tot&FI&CC&SG&SC&TT&_). apply CS in CC.
        exists (Contributing sg sc (cBalance c') href (lbl href) tot). repeat split; cbn; auto; [now apply LFI|eauto|intro X; apply SO; now apply TT|intro X; apply TT; now apply SO].
Qed.
Print Assumptions C129_calculation_partial.

(** ** A folder whose presentation of one role is spread over two linkbases *)
Definition halves_root : tree := xbrl_doc [schema_ref_to "a.xsd"; a_context; fact_saying "urn:a" "A" "f1" "1"].
Definition halves_schema : tree := schema_tree "urn:a"
  [xs "annotation" [] [xs "appinfo" [] [linkbase_ref_to "presentation" "pre.xml"; linkbase_ref_to "presentation" "pre2.xml";
     linkbase_ref_to "calculation" "cal.xml"; linkbase_ref_to "label" "lab.xml";
     a_role "r" [lk "definition" [] [txt "010 - Cover"]]]];
   concept_tree "R"; concept_tree "A"; concept_tree "B"].
Definition shows_below (n : string) : tree := lk "linkbase" []
  [lk "roleRef" [xl "type" "simple"; pa "roleURI" "urn:r"; xl "href" "a.xsd#r"] [];
   lk "presentationLink" [xl "type" "extended"; xl "role" "urn:r"]
     [loc_of "R"; loc_of n;
      lk "presentationArc" [xl "type" "arc"; xl "arcrole" "http://www.xbrl.org/2003/arcrole/parent-child"; xl "from" "R"; xl "to" n; pa "order" "1"] []]].
Definition halves_sum : tree := lk "linkbase" []
  [lk "roleRef" [xl "type" "simple"; pa "roleURI" "urn:r"; xl "href" "a.xsd#r"] [];
   lk "calculationLink" [xl "type" "extended"; xl "role" "urn:r"]
     [loc_of "A"; loc_of "B";
      lk "calculationArc" [xl "type" "arc"; xl "arcrole" "http://www.xbrl.org/2003/arcrole/summation-item"; xl "from" "A"; xl "to" "B"; pa "order" "1"; pa "weight" "1"] []]].
Definition halves_disk : disk := small_disk [(in_dir "x.xml", halves_root); (in_dir "a.xsd", halves_schema);
  (in_dir "pre.xml", shows_below "A"); (in_dir "pre2.xml", shows_below "B"); (in_dir "cal.xml", halves_sum); (in_dir "lab.xml", label_doc [txt "Net income"])].
Definition halves_end : state := go_on (files_of halves_disk) small_dir 60
  (schema_ref (files_of halves_disk) small_dir (first_folder (files_of halves_disk) small_dir "x.xml") (instance_struct halves_root)).
Definition halves_folder : folder := DiscoverModel.finish "x.xml" (instance_struct halves_root) (fst halves_end).
Definition halves_report : hydratable :=
  match hydrate ex_pf plain_order (d_url halves_disk) (global_schema_file halves_disk) ex_tokens (Ok []) (Ok None) halves_folder with
  | Ok h => h | _ => Hydratable halves_folder [] None [] [] [] [] [] [] end.
Definition halves_outside : outside :=
  Outside (d_url halves_disk) (global_schema_file halves_disk) (Ok []) (Ok []) sample_tree (fun _ => []) (fun _ _ _ => None) (fun _ => None) (fun _ => "") (fun _ => None).
Lemma halves_entry : entry_at halves_disk small_dir halves_root "x.xml" "x.xml".
Proof. apply small_entry_at; [reflexivity|do 4 eexists; reflexivity]. Qed.
Lemma halves_loaded : loaded halves_disk small_dir "x.xml" false ex_pf plain_order ex_tokens (Ok []) halves_report.
Proof.
  exists halves_folder, (Ok None). split; [|split; [vm_compute; constructor|vm_compute; reflexivity]].
  assert (EI : entry_instance (files_of halves_disk) small_dir "x.xml" "x.xml" (instance_struct halves_root)) by (apply entry_iff; eauto using halves_entry).
  apply (discover_iff _ _ _ _ _ _ _ EI). exists halves_end. split; [apply go_on_runs; constructor|]. split; [vm_compute; repeat constructor|reflexivity].
Qed.
Lemma halves_in x t : followed_at halves_disk small_dir halves_root x t -> t = halves_schema.
Proof.
  intro F. apply followed_at_local in F as [_ L]. apply small_document in L as [E N]. simpl in E. destruct N as (?&?&?&?&N).
  repeat destruct E as [E|E]; try contradiction; injection E as _ <-; auto; discriminate N.
Qed.
Lemma halves_known x t : known halves_disk small_dir halves_root x t -> t = halves_schema.
Proof. intros [F|(_&data&K&_)]; [now apply halves_in in F|discriminate K]. Qed.
Lemma halves_followed : followed_at halves_disk small_dir halves_root "a.xsd" halves_schema.
Proof.
  apply (fat_ref _ _ _ _ _ "urn:a"); [| |req_tac].
  - exists (schema_ref_to "a.xsd"). split; [simpl; auto|]. split; [do 3 eexists; reflexivity|req_tac].
  - split; [reflexivity|]. exists (in_dir "a.xsd"). split; [reflexivity|]. split; [reflexivity|]. do 4 eexists; reflexivity.
Qed.
Lemma halves_plain : plain_books halves_disk small_dir halves_root /\
  (forall x t, known halves_disk small_dir halves_root x t -> plain_declarations t).
Proof.
  assert (OW : forall k x t l ps, linkbase_at halves_disk small_dir halves_root k x t -> own_links t l ps).
  { intros k x t l ps (_&_&_&_&L). destruct L as [_ L]. apply small_document in L as [E (?&?&?&?&N)]. simpl in E.
    repeat destruct E as [E|E]; try contradiction; injection E as _ <-; try discriminate N;
      intros y s Hy Ny; simpl in Hy; repeat destruct Hy as [<-|Hy]; try contradiction; destruct Ny as (?&?&?&Ny); injection Ny; intros; subst; (split; [reflexivity|]);
      intros z l' s' Hz _ Nz; simpl in Hz; repeat destruct Hz as [<-|Hz]; try contradiction; destruct Nz as (?&?&?&Nz); injection Nz; intros; subst; reflexivity. }
  split; [split; [|split]|].
  - intros x t T. eapply OW; eauto.
  - intros x t T. eapply OW; eauto.
  - intros x t T. split; [eapply OW; eauto|]. destruct T as (_&_&_&_&L). destruct L as [_ L]. apply small_document in L as [E (?&?&?&?&N)]. simpl in E.
    intros y z k Hy (?&?&?&?&Ny) Hz (?&?&?&?&Nz) Hk.
    repeat destruct E as [E|E]; try contradiction; injection E as _ <-; try discriminate N; simpl in Hy;
      repeat destruct Hy as [<-|Hy]; try contradiction; try discriminate Ny; simpl in Hz;
      repeat destruct Hz as [<-|Hz]; try contradiction; try discriminate Nz; simpl in Hk; destruct Hk as [<-|[]]. eexists. reflexivity.
  - intros x t K. apply halves_known in K. subst t. prove_plain.
Qed.
Lemma ex_order e o r f g : is_arc ex_pf e o r f g -> o <> S754_nan.
Proof.
  intros A. destruct (ar_order _ _ _ _ _ _ A) as (s&_&[[E ->]|[_ ->]]); [|discriminate]. revert E. unfold ex_pf. destruct (String.eqb s "1"); discriminate.
Qed.
Lemma grown_orders arcs : (forall a, In a arcs -> arOrder a <> S754_nan) -> forall fuel l o, o <> S754_nan -> orders_are_numbers (grow fuel arcs l o).
Proof.
  intros H fuel. induction fuel as [|fuel IH]; intros l o O n N.
  - inversion N as [|? c ? C D]; subst; [exact O|destruct C].
  - inversion N as [|? c ? C D]; subst; [exact O|]. cbn [grow ra_children] in C. apply in_map_iff in C as (a&<-&Ha).
    apply filter_In in Ha as [Ha _]. revert D. apply IH. auto.
Qed.
Lemma sample_orders arcs role : (forall a, In a arcs -> arOrder a <> S754_nan) -> orders_are_numbers (sample_tree arcs role).
Proof.
  intros H n N. inversion N as [|? c ? C D]; subst; [discriminate|]. unfold sample_tree in C. cbn [ra_children] in C.
  apply in_map_iff in C as (a&<-&_). revert D. apply grown_orders; [|discriminate]. intros b Hb. apply filter_In in Hb as [Hb _]. auto.
Qed.
Lemma those_In {A} (P : A -> Prop) l m x : those P l m -> In x m -> In x l.
Proof. intro T. induction T; simpl; auto. intros [->|]; auto. Qed.
Lemma network_arcs {arc} link_name arc_name is_a t role locs (arcs : list arc) a : network_at link_name arc_name is_a t role locs arcs -> In a arcs -> exists e, is_a e a.
Proof.
  intros (links&ks&I&T&_&->) H. apply in_flat_map in H as (k&Hk&Ha).
  assert (Hl : In k links) by (eapply those_In; eauto).
  apply (image_of_In _ _ _ _ I) in Hl as (x&_&_&_&_&_&J). destruct (image_of_In _ _ _ a J Ha) as (y&Hy&HA). destruct HA as (a0&i0&k0&E&A). eauto.
Qed.
(** The hypotheses of both theorems are met. *)
Example C129_example :
  loaded halves_disk small_dir "x.xml" false ex_pf plain_order ex_tokens (Ok []) halves_report /\
  plain_books halves_disk small_dir halves_root /\ (forall x t, known halves_disk small_dir halves_root x t -> plain_declarations t) /\
  (forall x t role locs arcs, linkbase_at halves_disk small_dir halves_root Presentation x t -> presentation_in ex_pf t role locs arcs ->
     orders_are_numbers (outline (o_tree halves_outside) arcs)) /\
  (forall x t role locs arcs a, linkbase_at halves_disk small_dir halves_root Calculation x t -> calculation_in ex_pf t role locs arcs -> In a arcs ->
     caOrder a <> S754_nan) /\
  exists bytes, marshalled_renderable halves_outside halves_report pair_slug (Ok (Some bytes)).
Proof.
  split; [exact halves_loaded|]. destruct halves_plain as [P K]. split; [exact P|]. split; [exact K|]. split; [|split].
  - intros x t role locs arcs _ H. apply sample_orders. intros b Hb. apply in_map_iff in Hb as (a&<-&Ha). cbn [arOrder].
    destruct (network_arcs _ _ _ _ _ _ _ _ H Ha) as (e&A&_). eapply ex_order; eauto.
  - intros x t role locs arcs a _ H Ha. destruct (network_arcs _ _ _ _ _ _ _ _ H Ha) as (e&A&_). eapply ex_order; eauto.
  - apply (own_rendering halves_outside halves_report pair_slug pair_entity pair_set "urn:s/0"); vm_compute; try reflexivity; discriminate.
Qed.

(** Refuted: of the two linkbases only one is shown; the concept below the root in the other is
    on no row. *)
Theorem C129_refuted :
  ~ (forall d dir name images pf sh tokens utr h file root, orders sh -> supported name -> loaded d dir name images pf sh tokens utr h ->
       entry_at d dir root name file -> plain_books d dir root ->
       forall w slug bytes e r v, marshalled_renderable w h slug (Ok (Some bytes)) -> is_slug e r slug -> reads_as bytes v ->
       has v "RelationshipSet" (relationship_set r) ->
       forall x t locs arcs a href, linkbase_at d dir root Presentation x t -> presented pf t (rsRole r) ->
         presentation_in pf t (rsRole r) locs arcs -> In a arcs -> paArcrole a = parent_child -> finds locs (paTo a) href ->
         exists i, has v "PGrid" (fun u => has u "IndentedLabels" (fun l => the_item l i (href_shown href)))).
Proof.
  intro H.
  assert (PP : exists pg rs ls, own_p halves_outside halves_report (stringify pair_entity) (rsRole pair_set) = Ok (pg, rs, ls) /\
    map ilHref (pgLabels pg) = ["a.xsd#id_R"; "a.xsd#id_A"]) by (do 3 eexists; split; vm_compute; reflexivity).
  destruct PP as (pg&rs&ls&OP&PL).
  destruct (own_rendering_value halves_outside halves_report pair_slug pair_entity pair_set "urn:s/0" pg rs ls) as (bytes&v&M&J&RS&PV);
    [vm_compute; reflexivity|vm_compute; reflexivity|exact OP|vm_compute; discriminate|vm_compute; discriminate|].
  assert (LR : linkbase_ref_at halves_schema Presentation "pre2.xml").
  { exists (linkbase_ref_to "presentation" "pre2.xml"). split.
    { do 2 eexists. split; [left; reflexivity|]. split; [do 3 eexists; reflexivity|]. split; [left; reflexivity|].
      split; [do 3 eexists; reflexivity|]. simpl; auto. }
    split; [do 3 eexists; reflexivity|]. split; [xlink_tac|]. split; [xlink_tac|]. split; xlink_tac. }
  assert (T : linkbase_at halves_disk small_dir halves_root Presentation "pre2.xml" (shows_below "B")).
  { exists "a.xsd", halves_schema. split; [exact halves_followed|]. split; [exact LR|]. split; [reflexivity|].
    exists (in_dir "pre2.xml"). split; [reflexivity|]. split; [reflexivity|]. do 4 eexists; reflexivity. }
  pose proof (proj1 (proj1 halves_plain) _ _ T) as OW.
  set (k := Link "urn:r" [Loc "a.xsd#id_R" "R"; Loc "a.xsd#id_B" "B"] [PArc (fst (ex_pf "1")) parent_child "R" "B" ""]).
  assert (HY : exists f lb, decode_presentation (Some (shows_below "B")) = Ok f /\
    hydrate_linkbase (hydrate_parc ex_pf) (fun l => l) (Some f) "pre2.xml" = Ok lb /\ lbLinks lb = [k] /\ map rrRoleURI (lbRoleRefs lb) = ["urn:r"])
    by (do 2 eexists; repeat split; vm_compute; reflexivity).
  destruct HY as (f&lb&HD&HH&LL&LRR).
  pose proof (C108_presentation_partial ex_pf (fun l => l) _ _ "pre2.xml" _ (fun l => Permutation_refl _) HD HH OW) as W.
  assert (Hk : In k (lbLinks lb)) by (rewrite LL; now left).
  assert (HN : has_network "urn:r" lb).
  { split; [|exists k; auto]. destruct (lbRoleRefs lb) as [|rr l]; [discriminate LRR|]. exists rr. split; [now left|]. now injection LRR. }
  destruct (H _ _ _ _ _ _ _ _ _ _ _ plain_orders x_supported halves_loaded halves_entry (proj1 halves_plain)
    halves_outside pair_slug bytes pair_entity pair_set v M (hash_slug _ _) J RS "pre2.xml" (shows_below "B") (lLocs k) (lArcs k)
    (PArc (fst (ex_pf "1")) parent_child "R" "B" "") "a.xsd#id_B" T (network_declared _ _ _ _ _ W _ HN) (network_read _ _ _ _ _ W _ _ Hk eq_refl)
    ltac:(now left) eq_refl) as (i&u&U1&l&L1&IT).
  { left. exists [Loc "a.xsd#id_R" "R"], []. split; [reflexivity|]. split.
    - split; [reflexivity|]. intro C. apply has_char_false_iff in C. discriminate C.
    - intros x [<-|[]] [E _]. discriminate E. }
  destruct PV as (u'&(l'&LV&LU)&PU). apply PU in U1. subst u'. apply LU in L1. subst l'.
  apply (list_of_hrefs ilHref) in LV; [|intros a b; apply row_href; discriminate]. rewrite PL in LV.
  destruct LV as (vs&->&F), IT as (vs'&y&[= <-]&NE&SH).
  assert (NO : forall h, href_shown h y -> h = "a.xsd#id_B" \/ h <> "a.xsd#id_R" /\ h <> "a.xsd#id_A").
  { intros h (x2&(t2&->&_&T2)&X2). destruct SH as (x1&(t1&->&_&T1)&X1). pose proof (proj1 (X1 _) (proj2 (X2 _) eq_refl)) as [= ->].
    destruct (string_dec h "a.xsd#id_R") as [->|N1]; [exfalso|destruct (string_dec h "a.xsd#id_A") as [->|N2]; [exfalso|auto]].
    - pose proof (T1 (JsonProofs.san_text "a.xsd#id_B")). pose proof (T2 (JsonProofs.san_text "a.xsd#id_R")). congruence.
    - pose proof (T1 (JsonProofs.san_text "a.xsd#id_B")). pose proof (T2 (JsonProofs.san_text "a.xsd#id_A")). congruence. }
  destruct (Forall2_In_r _ _ _ _ F (nth_error_In _ _ NE)) as (h&Hh&SHh). apply NO in SHh.
  destruct Hh as [<-|[<-|[]]], SHh as [E|[N1 N2]]; try discriminate E; congruence.
Qed.
Print Assumptions C129_refuted.
