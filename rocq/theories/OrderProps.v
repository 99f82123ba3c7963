(** * OrderProps: C147 (the order of the columns of an answer) *)
From Coq Require Import String List Bool Arith Lia Permutation ZArith Sorted.
From Verif Require Import GoBase GoSpec GoFacts AttrModel AttrSpec AttrProofs SchemaModel SchemaSpec SchemaProofs SchemaProps
  LinkbaseModel LinkbaseSpec LinkbaseProofs LinkbaseProps InstanceModel InstanceSpec InstanceProofs InstanceProps
  HydrateModel HydrateSpec HydrateProofs HydrateProps LabelModel LabelSpec LabelProofs LabelProps PeriodModel PeriodSpec PeriodProofs PeriodProps
  FactModel FactSpec FactProofs FactProps GridModel GridSpec GridProofs GridProps CalcModel CalcSpec CalcProofs CalcProps DefModel DefSpec DefProofs DefProps
  RenderModel RenderSpec RenderProofs RenderProps ExpressModel ExpressSpec ExpressProofs ExpressProps
  DiscoverModel DiscoverSpec DiscoverProofs DiscoverProps XmlModel XmlSpec XmlProofs XmlProps LoadModel LoadSpec LoadProofs LoadProps
  CatalogModel CatalogSpec CatalogProofs CatalogProps ReportModel ResponseModel ResponseSpec ResponseProofs ResponseProps EndToEndSpec EndToEndProps
  ReportSpec ReportProofs ReportProps AskSpec AskProps ImageModel ImageSpec ImageProofs ImageProps
  WebModel WebSpec WebProofs WebProps PathSpec RouterModel RouterSpec RouterProofs RouterProps.
From Verif Require CacheModel CacheSpec CacheProofs CacheProps.
From Verif Require Import ColumnSpec ColumnProofs ColumnProps NetworkSpec NetworkProps DimNetSpec DimNetProps ServerModel ServerSpec ServerProps ServedProps SetupModel SetupProps ReaderSpec ReaderProps OrderSpec.
Import ListNotations.
Local Open Scope string_scope.

(** ** The order *)
Lemma heading_period lbl c r : column_for lbl c r -> exists p, GridSpec.period_of c p /\ heading r = p.
Proof. intros (_&(p&P&E)&_). exists p. split; auto. unfold heading. rewrite E. reflexivity. Qed.
Lemma group_length {A B} (R : A -> list B -> Prop) (f : A -> nat) l gs : Forall2 R l gs -> (forall x g, R x g -> length g = f x) ->
  length (concat gs) = fold_right (fun x n => f x + n) 0 l.
Proof. intros F H. induction F as [|x g l gs X F IH]; cbn [concat fold_right]; auto. rewrite app_length, IH. now rewrite (H _ _ X). Qed.
Lemma flat_length {A B} (f : A -> list B) l : length (flat_map f l) = fold_right (fun x n => length (f x) + n) 0 l.
Proof. induction l as [|x l IH]; cbn; auto. now rewrite app_length, IH. Qed.
Lemma two_length {A B} (R : A -> B -> Prop) l k : Forall2 R l k -> length l = length k.
Proof. induction 1; cbn; congruence. Qed.
Lemma members_length lbl c r : column_for lbl c r -> length (rcMembers r) = members_count c.
Proof.
  intros (_&_&(se&st&ce&ct&->&F1&F2&F3&F4)). unfold members_count, explicit_of, typed_of.
  apply two_length in F1, F3. rewrite flat_map_app, !app_length, !flat_length, <- F1, <- F3.
  assert (G : forall x g, shows_typed_group lbl x g -> length g = length (tmMap x)).
  { intros x g (kvs&P&F). apply Permutation_length in P. apply two_length in F. congruence. }
  rewrite (group_length _ _ _ _ F2 G), (group_length _ _ _ _ F4 G). lia.
Qed.
Lemma sorted_map {A B} (R : B -> B -> Prop) (Q : A -> A -> Prop) (f : A -> B) l : (forall a b, R (f a) (f b) -> Q a b) ->
  StronglySorted R (map f l) -> StronglySorted Q l.
Proof.
  intros H. induction l as [|x l IH]; cbn [map]; intro S; [constructor|]. inversion S as [|? ? S' F]; subst. constructor; auto.
  apply Forall_forall. intros y Hy. apply H. rewrite Forall_forall in F. apply F. now apply in_map.
Qed.
Lemma columns_in_order tree lbl typed_order cs : (forall c t, Permutation (typed_order c t) (tmMap t)) ->
  StronglySorted column_le (map (fun c => fst (mk_col tree lbl typed_order c)) cs) -> in_order cs.
Proof.
  intros TO. apply sorted_map. intros a b H.
  pose proof (mk_col_column tree lbl typed_order TO a) as A. pose proof (mk_col_column tree lbl typed_order TO b) as B.
  destruct (heading_period _ _ _ A) as (p&P&EP), (heading_period _ _ _ B) as (q&Q&EQ). exists p, q. split; auto. split; auto.
  unfold column_le in H. rewrite EP, EQ, (members_length _ _ _ A), (members_length _ _ _ B) in H.
  destruct H as [H|(H1&[H|[H _]])]; auto; right; split; auto; lia.
Qed.

(** ** C147 *)
(** Of every report that can be loaded, whatever network a client asks for and whatever the
    orders and schedules: the columns of every grid are in the order of their periods, as these are
    written, and those with the same period in the order of the number of their dimension members. *)
Theorem C147_order_as_written :
  forall d dir name images pf sh tokens utr h, supported name -> loaded d dir name images pf sh tokens utr h ->
  exists file root, entry_at d dir root name file /\
    (well_written d dir root ->
     exists facts contexts q, understands d dir root q /\ facts_written d dir root facts /\
       contexts_written root q (content_of q tokens (attributes root)) contexts /\
       forall w slug bytes, o_url w = d_url d -> o_schema w = global_schema_file d ->
         marshalled_renderable w h slug (Ok (Some bytes)) ->
         exists e r v, is_slug e r slug /\ reads_as bytes v /\
           has v "Subject" (fun u => has u "Entity" (entity_value e)) /\
           has v "RelationshipSet" (relationship_set r) /\
           let shown u rows cols :=
             grid_shows facts contexts (reports d dir root) (eScheme e ++ "/" ++ eChar e) (renders_from w h) u rows cols /\ in_order cols in
           presentation_with shown v /\ definition_with shown v /\ calculation_with shown v).
Proof.
  intros d dir name images pf sh tokens utr h N L.
  destruct (report_read _ _ _ _ _ _ _ _ _ N L) as (file&root&i&EA&HI&R). exists file, root. split; auto. intros WW.
  destruct (R WW) as (q&Q&FW&CW&K). exists (iFacts i), (iContexts i), q. do 3 (split; [assumption|]).
  intros w slug bytes OU OS M. destruct (K w OU OS) as [HC IC].
  destruct (rendered_with w h slug bytes file i (fun s u rows cols =>
    grid_shows (iFacts i) (iContexts i) (reports d dir root) s (renders_from w h) u rows cols /\ in_order cols) HI) as (e&r&v&SL&_&J&SB&RS&P); [|exact M|].
  - intros subject hrefs periods facts fg notes es langs members void fields v (g&lbl&cols&seg&scen&packs&ls&GF&EC&EQ&UL&EP&EM) O ND I1 I2. subst periods.
    destruct (grid_json w h file i (reports d dir root) HI HC IC g lbl subject hrefs cols seg scen packs ls facts fg notes es langs members void fields v)
      as (cs&->&TT&GS); auto.
    exists cs. split; [exact GS|]. apply C16_columns_sorted in EC. eapply columns_in_order; [|exact EC]. apply (gf_typed _ _ _ GF).
  - exists e, r, v. cbv zeta. auto 10.
Qed.
Print Assumptions C147_order_as_written.

(** ** In time *)
Lemma compare_cons c d a b : String.compare (String c a) (String d b) = match Ascii.compare c d with Eq => String.compare a b | x => x end.
Proof. reflexivity. Qed.
Lemma compare_app a : forall b x y, String.length a = String.length b ->
  String.compare (a ++ x) (b ++ y) = match String.compare a b with Eq => String.compare x y | c => c end.
Proof.
  induction a as [|c a IH]; intros [|d b] x y L; try discriminate; cbn [append]; auto.
  rewrite !compare_cons. destruct (Ascii.compare c d); auto.
Qed.
Lemma digit_compare c m d n : digit c m -> digit d n -> Ascii.compare c d = (m ?= n)%Z.
Proof.
  intros C D. unfold digit in C, D. simpl in C, D.
  repeat (destruct C as [C|C]; [injection C as <- <-; repeat (destruct D as [D|D]; [injection D as <- <-; reflexivity|]); destruct D|]). destruct C.
Qed.
Lemma digit_bounds c m : digit c m -> (0 <= m < 10)%Z.
Proof. unfold digit. simpl. intro C. repeat (destruct C as [C|C]; [injection C as <- <-; lia|]). destruct C. Qed.
Lemma numeral_compare a m : numeral a m -> forall b n, numeral b n -> String.length a = String.length b -> String.compare a b = (m ?= n)%Z.
Proof.
  induction 1 as [c m C|a m c k A IH C]; intros b n B L.
  - inversion B as [d n' D|b' n' d k' B' D]; subst.
    + rewrite compare_cons, (digit_compare _ _ _ _ C D). now destruct (m ?= n)%Z.
    + exfalso. rewrite slength_app in L. simpl in L. apply numeral_nonempty in B'. destruct b'; simpl in *; [congruence|lia].
  - inversion B as [d n' D|b' n' d k' B' D]; subst.
    + exfalso. rewrite slength_app in L. simpl in L. apply numeral_nonempty in A. destruct a; simpl in *; [congruence|lia].
    + rewrite !slength_app in L. simpl in L. rewrite compare_app by lia. rewrite (IH _ _ B') by lia.
      rewrite compare_cons, (digit_compare _ _ _ _ C D). pose proof (digit_bounds _ _ C). pose proof (digit_bounds _ _ D).
      destruct (Z.compare_spec m n') as [->|K|K].
      * transitivity (k ?= k')%Z; [now destruct (k ?= k')%Z|]. rewrite Zcompare_plus_compat. reflexivity.
      * symmetry. apply Z.compare_lt_iff. lia.
      * symmetry. apply Z.compare_gt_iff. lia.
Qed.
Lemma dates_compare s d s' d' x y : is_date s d -> is_date s' d' -> ~ not_after d d' -> slt (s' ++ y) (s ++ x).
Proof.
  intros (yy&mm&dd&->&[L1 N1]&[L2 N2]&[L3 N3]&_) (yy'&mm'&dd'&->&[L1' N1']&[L2' N2']&[L3' N3']&_) NA.
  unfold slt. rewrite !JsonProofs.sapp_assoc. rewrite compare_app by congruence. rewrite (numeral_compare _ _ N1' _ _ N1) by congruence.
  unfold not_after in NA. destruct (Z.compare_spec (dYear d') (dYear d)) as [E|K|K]; [|reflexivity|exfalso; lia].
  rewrite compare_app by reflexivity. rewrite scompare_refl. rewrite compare_app by congruence. rewrite (numeral_compare _ _ N2' _ _ N2) by congruence.
  destruct (Z.compare_spec (dMonth d') (dMonth d)) as [E'|K|K]; [|reflexivity|exfalso; lia].
  rewrite compare_app by reflexivity. rewrite scompare_refl. rewrite compare_app by congruence. rewrite (numeral_compare _ _ N3' _ _ N3) by congruence.
  destruct (Z.compare_spec (dDay d') (dDay d)) as [E''|K|K]; [exfalso; lia|reflexivity|exfalso; lia].
Qed.
Lemma begins_period c s p : begins c s -> GridSpec.period_of c p -> exists x, p = s ++ x.
Proof.
  intros [(A&B&->)|([A|A]&->)] [(C&D&->)|([C|C]&->)]; try contradiction; eauto; exists ""; clear; induction (ctxInstant c) as [|a r IH]; cbn; congruence.
Qed.
(** Columns in this order are in order of time: where the first days of the periods are calendar dates, none is
    before that of an earlier column. *)
Theorem C147_in_time : forall cols i j a b s s' d d', in_order cols -> i < j -> nth_error cols i = Some a -> nth_error cols j = Some b ->
  begins a s -> begins b s' -> is_date s d -> is_date s' d' -> not_after d d'.
Proof.
  intros cols i j a b s s' d d' S LT A B BA BB D D'.
  assert (CB : column_before a b).
  { revert i j LT A B. induction S as [|x l S IH F]; intros i j LT A B; [destruct i; discriminate A|].
    destruct i as [|i], j as [|j]; try lia; cbn [nth_error] in A, B.
    - injection A as ->. rewrite Forall_forall in F. apply F. eapply nth_error_In; eauto.
    - apply (IH i j); auto. lia. }
  destruct CB as (p&q&P&Q&C). destruct (begins_period _ _ _ BA P) as (x&->), (begins_period _ _ _ BB Q) as (y&->).
  assert (DEC : not_after d d' \/ ~ not_after d d') by (unfold not_after; lia). destruct DEC as [|NA]; auto. exfalso.
  pose proof (dates_compare _ _ _ _ x y D D' NA) as LTT. destruct C as [C|[C _]].
  - eapply slt_irrefl, slt_trans; eauto.
  - rewrite C in LTT. eapply slt_irrefl; eauto.
Qed.
Print Assumptions C147_in_time.

(** C147 for the running server, whatever it has been asked before. *)
Theorem C147_served_as_written : forall w detect files s id slug query p, history w s ->
  entry_name_ok id -> entry_name_ok slug -> slug <> "facts" ->
  exchanged detect files s "GET" ("/folders/" ++ id ++ "/" ++ slug) query (Answer (Some p)) -> status p = 200 -> body p <> "" ->
  exists name h, report_of w id name h /\
    ((slug = name /\ inline_name name /\ document_sent w id name (body p)) \/
     (exists file root, entry_at (w_disk w) (folder_at w id) root name file /\
        (well_written (w_disk w) (folder_at w id) root ->
         exists facts contexts q, understands (w_disk w) (folder_at w id) root q /\ facts_written (w_disk w) (folder_at w id) root facts /\
           contexts_written root q (content_of q (w_tokens w) (attributes root)) contexts /\
         exists e r v, is_slug e r slug /\ reads_as (body p) v /\
           has v "Subject" (fun u => has u "Entity" (entity_value e)) /\ has v "RelationshipSet" (relationship_set r) /\
           let shown u rows cols :=
             grid_shows facts contexts (reports (w_disk w) (folder_at w id) root) (eScheme e ++ "/" ++ eChar e) (renders_from (out w) h) u rows cols /\ in_order cols in
           presentation_with shown v /\ definition_with shown v /\ calculation_with shown v))).
Proof.
  intros w detect files s id slug query p H I J N X ST B.
  destruct (network_sent _ _ _ _ _ _ _ _ H I J N X ST B) as (name&h&R&M). exists name, h. split; auto. destruct M as [M|[SN M]]; [now left|right].
  destruct R as (_&images&sh&O&L). destruct (C147_order_as_written _ _ _ _ _ _ _ _ _ SN L) as (file&root&EA&K). exists file, root. split; auto.
  intro WW. destruct (K WW) as (facts&contexts&q&A1&A2&A3&A4). exists facts, contexts, q. do 3 (split; [assumption|]).
  exact (A4 (out w) slug (body p) eq_refl eq_refl M).
Qed.
Print Assumptions C147_served_as_written.

(** The hypotheses are met: a report with two columns in one period, the one without members first; and columns in order of time. *)
Example C147_example :
  loaded noted_disk small_dir "x.xml" false ex_pf plain_order ex_tokens (Ok []) noted_report /\ well_written noted_disk small_dir noted_root /\
  (o_url noted_outside = d_url noted_disk /\ o_schema noted_outside = global_schema_file noted_disk) /\
  (exists bytes, marshalled_renderable noted_outside noted_report pair_slug (Ok (Some bytes))) /\
  (exists g rows langs, own_p noted_outside noted_report (stringify pair_entity) (rsRole pair_set) = Ok (g, rows, langs) /\
     pgPeriods g = [[("Unlabelled", "2020-12-31")]; [("Unlabelled", "2020-12-31")]] /\
     map (map (map (fun x => feCore (snd x)))) (pgFacts g) = [[[""]; [""]]; [["one"]; ["two"]]]) /\
  (let c id s e i := Context id "urn:s" "0" (DimContext [] []) i s e (DimContext [] []) in
   let cols := [c "1" "2019-01-01" "2019-12-31" ""; c "2" "" "" "2019-12-31"; c "3" "2020-01-01" "2020-03-31" ""; c "4" "2020-01-01" "2020-12-31" ""] in
   in_order cols /\ begins (c "1" "2019-01-01" "2019-12-31" "") "2019-01-01" /\ is_date "2019-01-01" (Date 2019 1 1)).
Proof.
  split; [exact noted_loaded|]. split; [exact noted_written|]. split; [split; reflexivity|]. split; [exact noted_served|].
  split; [do 3 eexists; split; [vm_compute; reflexivity|split; vm_compute; reflexivity]|].
  cbv zeta. split; [|split].
  - repeat (apply SSorted_cons || apply SSorted_nil || apply Forall_cons || apply Forall_nil);
      do 2 eexists; (split; [unfold GridSpec.period_of; cbn; ((left; repeat split; discriminate) || (right; split; [now left|reflexivity]))|]);
      (split; [unfold GridSpec.period_of; cbn; ((left; repeat split; discriminate) || (right; split; [now left|reflexivity]))|]); left; vm_compute; reflexivity.
  - left. repeat split; discriminate.
  - apply parse_date_iff. vm_compute. reflexivity.
Qed.
