(** * RenderProps: C33, C52 for a whole renderable, C92 *)
From Verif Require Import GoBase GoSpec GoFacts AttrModel SchemaModel LinkbaseModel InstanceModel
  LabelModel LabelSpec LabelProofs PeriodModel PeriodSpec PeriodProofs PeriodProps FactModel FactProps
  GridModel GridSpec GridProofs GridProps
  CalcModel CalcSpec CalcProofs CalcProps DefModel RenderModel RenderSpec RenderProofs.
Local Open Scope string_scope.

(** ** A sample: presentation and calculation network of the same role *)
Definition render_pre : linkbase parc :=
  Linkbase "p.xml" [RoleRef calc_role "e.xsd#calc"]
    [Link calc_role [Loc "t#Total" "l0"; Loc "t#B" "l1"] [parc_ "l0" "l1" 1]].
Definition render_p := p_grid_of sample_tree (get_label calc_labels) calc_concept (calc_genv "")
  "http://cik/0001" calc_role [render_pre].
Definition render_c := sample_items (fun m => m).
Definition render_d := d_grid_of sample_tree (get_label calc_labels) calc_concept (fun _ => calc_genv "") (fun _ _ => [])
  (fun _ => "") (fun l => l) "http://cik/0001" calc_role [] [].
Example render_example :
  exists p d c, render_p = Ok (p, ["Default"], ["Unlabelled"; "Truncated"]) /\ render_d = Ok (d, [], []) /\
    render_c = Ok (c, ["Default"; "Terse"], ["Unlabelled"; "Truncated"; "es - español"]).
Proof.
  do 3 eexists. split; [|split]; vm_compute; reflexivity.
Qed.

(** following a schedule: which goroutine moves, and the capacity it gets *)
Fixpoint follow (l : list (nat * nat)) (c : rconf) : option rconf :=
  match l with
  | [] => Some c
  | (i, cap) :: r =>
      match nth_error (rcThreads c) i with
      | Some t => match tstep cap (rcMem c) t with
                  | Some (m, t') => follow r (RConf m (set_nth (rcThreads c) i t'))
                  | None => None
                  end
      | None => None
      end
  end.
Lemma set_nth_split {A} (l : list A) i x y : nth_error l i = Some x ->
  exists l1 l2, l = (l1 ++ x :: l2)%list /\ set_nth l i y = (l1 ++ y :: l2)%list.
Proof.
  revert i; induction l as [|z l IH]; intros [|i] H; try discriminate; simpl in H.
  - injection H as ->. exists [], l. auto.
  - destruct (IH _ H) as (l1&l2&->&E). exists (z :: l1), l2. simpl. now rewrite E.
Qed.
Lemma follow_step c i t cap m t' : nth_error (rcThreads c) i = Some t -> tstep cap (rcMem c) t = Some (m, t') ->
  rstep c (RConf m (set_nth (rcThreads c) i t')).
Proof.
  intros H E. destruct c as [m0 ts]. cbn [rcThreads rcMem] in *.
  destruct (set_nth_split ts i t t' H) as (l1&l2&->&->). now apply rstep_thread with (c := cap).
Qed.
Lemma rsteps_trans a b c : rsteps a b -> rsteps b c -> rsteps a c.
Proof.
  intros H K. revert H. induction K as [|b c d R IH S]; auto. intro H. exact (rsteps_step _ _ _ (IH H) S).
Qed.
Lemma follow_steps l c c' : follow l c = Some c' -> rsteps c c'.
Proof.
  revert c. induction l as [|[i cap] l IH]; intros c; cbn [follow]; [intros [= ->]; constructor|].
  destruct (nth_error _ _) as [t|] eqn:T; [|discriminate]. destruct (tstep _ _ _) as [[m t']|] eqn:E; [|discriminate].
  intro F. eapply rsteps_trans; [|apply IH; exact F]. econstructor; [constructor|]. eapply follow_step; eauto.
Qed.

(** C33. Refuted: the definition grid has nothing to add, reads the header before, and stores
    it after the others have appended. *)
Theorem C33_refuted :
  ~ (forall p d cg c, rsteps (started p d cg) c -> rdone c ->
       forall role, In role (final_roles c) <-> grid_roles p role \/ grid_roles d role \/ grid_roles cg role) /\
  exists c, rsteps (started render_p render_d render_c) c /\ rdone c /\ final_roles c = [] /\ final_langs c = [].
Proof.
  assert (W : exists c, rsteps (started render_p render_d render_c) c /\ rdone c /\ final_roles c = [] /\ final_langs c = []).
  { pose (sch := ([(1, 0)] ++ repeat (0, 0) 4 ++ repeat (2, 0) 5 ++ [(1, 0); (1, 0); (1, 0)]
              ++ repeat (0, 0) 5 ++ repeat (2, 0) 6 ++ [(1, 0); (1, 0)])%list).
    destruct (follow sch (started render_p render_d render_c)) as [c|] eqn:F.
    - exists c. split; [eapply follow_steps; eauto|]. vm_compute in F. injection F as <-.
      split; [|split; vm_compute; reflexivity]. intros t H. simpl in H.
      repeat (destruct H as [<-|H]; [reflexivity|]). contradiction.
    - exfalso. vm_compute in F. discriminate F. }
  split; auto. intro H. destruct W as (c&R&D&E&_). specialize (H _ _ _ _ R D "Terse"). rewrite E in H.
  destruct render_example as (p&d&cg&_&_&EC). destruct (proj2 H). right. right. do 3 eexists. split; [exact EC|]. simpl; auto.
Qed.
Print Assumptions C33_refuted.

Definition contributed (p d cg : thread) (v : nat) : list string :=
  (todo_for v p ++ todo_for v d ++ todo_for v cg)%list.
Lemma contributed_roles {A B C} (p : res (A * list string * list string)) (d : res (B * list string * list string))
  (cg : res (C * list string * list string)) x :
  (In x (contributed (goroutine p) (goroutine d) (goroutine cg) 0) <->
   grid_roles p x \/ grid_roles d x \/ grid_roles cg x) /\
  (In x (contributed (goroutine p) (goroutine d) (goroutine cg) 1) <->
   grid_langs p x \/ grid_langs d x \/ grid_langs cg x).
Proof.
  assert (G : forall G (r : res (G * list string * list string)),
    (In x (todo_for 0 (goroutine r)) <-> grid_roles r x) /\ (In x (todo_for 1 (goroutine r)) <-> grid_langs r x)).
  { intros G r. unfold grid_roles, grid_langs, todo_for, goroutine. cbn [thTodo].
    destruct r as [[[g lr] ln]|m|]; cbn [flat_map fst snd Nat.eqb]; rewrite ?app_nil_r.
    - split; (split; [eauto 6|intros (?&?&?&[= -> -> ->]&H); auto]).
    - split; (split; [intros []|intros (?&?&?&[=]&_)]).
    - split; (split; [intros []|intros (?&?&?&[=]&_)]). }
  unfold contributed. split; rewrite !in_app_iff; rewrite ?(proj1 (G _ _)), ?(proj2 (G _ _)); reflexivity.
Qed.
Lemma strings_of_Some l : strings_of (map Some l) = l.
Proof.
  unfold strings_of. rewrite map_map. apply map_id.
Qed.
Lemma started_thread {A B C} (p : res (A * list string * list string)) (d : res (B * list string * list string))
  (cg : res (C * list string * list string)) t :
  In t [goroutine p; goroutine d; goroutine cg] ->
  thPC t = AtStart /\ forall v ys, In (v, ys) (thTodo t) -> v < 2 /\
    forall x, In x ys -> In x (contributed (goroutine p) (goroutine d) (goroutine cg) v).
Proof.
  intro H. split; [simpl in H; repeat destruct H as [<-|H]; try reflexivity; contradiction|].
  intros v ys I. split.
  - simpl in H. repeat destruct H as [<-|H]; try contradiction; cbn [goroutine thTodo] in I;
      match type of I with In _ (match ?r with _ => _ end) => destruct r as [[[? ?] ?]| |] end; simpl in I;
      repeat destruct I as [[= <- <-]|I]; try contradiction; lia.
  - intros x Hx. assert (X : In x (todo_for v t)).
    { unfold todo_for. apply in_flat_map. exists (v, ys). cbn [fst snd]. now rewrite Nat.eqb_refl. }
    unfold contributed. rewrite !in_app_iff. simpl in H. repeat destruct H as [<-|H]; auto; contradiction.
Qed.

Lemma initial_slot a k : slot initial_memory a k = None.
Proof.
  unfold slot, array, initial_memory. cbn [mArrays].
  destruct a as [|[|[|a]]]; cbn [nth]; [apply nth_repeat|apply nth_repeat|now destruct k|now destruct k].
Qed.

(** Under every schedule: only contributed roles and languages, each once, and no slot that
    was never written. *)
Theorem C33_no_invention_partial :
  forall p d cg c, rsteps (started p d cg) c ->
    NoDup (final_roles c) /\ NoDup (final_langs c) /\
    ~ In None (contents (rcMem c) 0) /\ ~ In None (contents (rcMem c) 1) /\
    (forall x, In x (final_roles c) -> grid_roles p x \/ grid_roles d x \/ grid_roles cg x) /\
    (forall x, In x (final_langs c) -> grid_langs p x \/ grid_langs d x \/ grid_langs cg x).
Proof.
  intros p d cg c R.
  pose (U := fun v x => In x (contributed (goroutine p) (goroutine d) (goroutine cg) v)).
  assert (I : cinv U 2 c).
  { apply (cinv_steps U 2 _ _ R). exists (fun a => a). split.
    - split; [reflexivity|]. split.
      + intros a k x H. change (slot initial_memory a k = Some x) in H. rewrite initial_slot in H. discriminate.
      + intros v L. destruct v as [|[|v]]; [| |lia]; (split; [reflexivity|]; split; [cbn; lia|intros k K; cbn in K; lia]).
    - intros t H. destruct (started_thread p d cg t H) as [P T]. split; [exact T|]. rewrite P.
      now destruct (thTodo t) as [|[? ?] ?]. }
  assert (K : forall v, v < 2 -> ~ In None (contents (rcMem c) v) /\
     forall x, In x (dedup_strings (strings_of (contents (rcMem c) v))) -> U v x).
  { intros v L. split.
    - intro H. destruct (cinv_contents U 2 c v None I L H) as (s&?&_). discriminate.
    - intros x H. unfold dedup_strings in H. rewrite (uniq_In _ seqP) in H. apply in_map_iff in H as (o&<-&H).
      destruct (cinv_contents U 2 c v o I L H) as (s&->&Hs). exact Hs. }
  destruct (K 0) as [N0 S0]; [lia|]. destruct (K 1) as [N1 S1]; [lia|].
  split; [apply uniq_NoDup, seqP|]. split; [apply uniq_NoDup, seqP|]. split; [auto|]. split; [auto|].
  split; intros x H; [apply (proj1 (contributed_roles p d cg x)), S0|apply (proj2 (contributed_roles p d cg x)), S1]; exact H.
Qed.
Print Assumptions C33_no_invention_partial.

(** If no two appends overlap: exactly the contributed roles and languages. *)
Theorem C33_no_overlap_partial :
  forall p d cg c, serial_run (started p d cg) c -> rdone c ->
    (forall x, In x (final_roles c) <-> grid_roles p x \/ grid_roles d x \/ grid_roles cg x) /\
    (forall x, In x (final_langs c) <-> grid_langs p x \/ grid_langs d x \/ grid_langs cg x).
Proof.
  intros p d cg c R D.
  assert (I : sinv 2 (contributed (goroutine p) (goroutine d) (goroutine cg)) c).
  { apply (sinv_run 2 (contributed (goroutine p) (goroutine d) (goroutine cg)) _ _ R).
    - intros i j ti tj Hi Hj Ai _. exfalso. apply Ai.
      apply (started_thread p d cg). eapply nth_error_In; eauto.
    - exists (fun _ => []). split; [|split].
      + split; [reflexivity|]. split.
        * intros v L. destruct v as [|[|v]]; [| |lia]; (split; [reflexivity|]; split; [cbn; lia|intros j J; cbn in J; lia]).
        * intros v w L L'. destruct v as [|[|v]], w as [|[|w]]; try lia; cbn; intro; congruence.
      + intros t H. destruct (started_thread p d cg t H) as [P T]. split.
        * intros v ys Hv. now apply (T v ys).
        * rewrite P. now destruct (thTodo t) as [|[? ?] ?].
      + intros v L. cbn [started rcThreads flat_map app]. rewrite app_nil_r. reflexivity. }
  assert (K : forall v x, v < 2 -> In x (dedup_strings (strings_of (contents (rcMem c) v))) <->
     In x (contributed (goroutine p) (goroutine d) (goroutine cg) v)).
  { intros v x L. destruct (sinv_contents 2 _ c v I D L) as (l&->&P). rewrite strings_of_Some.
    unfold dedup_strings. rewrite (uniq_In _ seqP).
    split; apply Permutation_in; [exact P|now symmetry]. }
  split; intro x; [unfold final_roles|unfold final_langs]; rewrite K by lia;
    [apply (proj1 (contributed_roles p d cg x))|apply (proj2 (contributed_roles p d cg x))].
Qed.
Print Assumptions C33_no_overlap_partial.

(** The goroutines cannot get stuck and end after a bounded number of steps. *)
Theorem C33_terminates_partial :
  forall p d cg,
    (forall c, rsteps (started p d cg) c -> rdone c \/ exists c', rstep c c') /\
    exists bound, forall n c, steps_n n (started p d cg) c -> n <= bound.
Proof.
  intros p d cg. split; [intros c _; apply rprogress|].
  set (b := size_left (started p d cg)). exists (cweight b (started p d cg)). intros n c H.
  destruct (binv_run b n _ _ H) as [_ W]; [|lia]. split.
  - intros v. destruct v as [|[|[|v]]]; apply Nat.le_refl.
  - intros t Ht. destruct (started_thread p d cg t Ht) as [-> _]. cbn [pc_len copied]. split; [apply Nat.le_refl|lia].
Qed.
Print Assumptions C33_terminates_partial.
(** a schedule without overlap *)
Definition appendingb (t : thread) : bool := match thPC t with AtStart => false | _ => true end.
Fixpoint follow_serial (l : list (nat * nat)) (c : rconf) : option rconf :=
  match l with
  | [] => Some c
  | s :: r => match follow [s] c with
              | Some c' => if Nat.leb (List.length (filter appendingb (rcThreads c'))) 1 then follow_serial r c' else None
              | None => None
              end
  end.
Lemma one_check c : List.length (filter appendingb (rcThreads c)) <= 1 -> one_at_a_time c.
Proof.
  destruct c as [m ts]. unfold one_at_a_time. cbn [rcThreads]. intros L i j ti tj Hi Hj Ai Aj.
  assert (B : forall t, appending t -> appendingb t = true).
  { intros t A. unfold appendingb. destruct (thPC t) eqn:E; auto. }
  revert i j L Hi Hj. induction ts as [|t ts IH]; intros i j L Hi Hj; [now destruct i|].
  assert (NI : forall k u, nth_error ts k = Some u -> appending u -> filter appendingb ts <> []).
  { intros k u H A E. assert (In u (filter appendingb ts)) by (apply filter_In; eauto using nth_error_In).
    rewrite E in H0. contradiction. }
  cbn [filter] in L. destruct i as [|i], j as [|j]; auto; simpl in Hi, Hj.
  - injection Hi as ->. rewrite (B ti Ai) in L. destruct (filter appendingb ts) eqn:F; [now apply NI in Hj|simpl in L; lia].
  - injection Hj as ->. rewrite (B tj Aj) in L. destruct (filter appendingb ts) eqn:F; [now apply NI in Hi|simpl in L; lia].
  - f_equal. apply (IH i j); auto. destruct (appendingb t); simpl in L; lia.
Qed.
Lemma serial_trans a b c : serial_run a b -> serial_run b c -> serial_run a c.
Proof.
  intros H K. revert H. induction K as [|b c d R IH S O]; auto. intro H. exact (serial_step _ _ _ (IH H) S O).
Qed.
Lemma follow_serial_run l c c' : follow_serial l c = Some c' -> serial_run c c'.
Proof.
  revert c. induction l as [|[i cap] l IH]; intros c; cbn [follow_serial]; [intros [= ->]; constructor|].
  destruct (follow [(i, cap)] c) as [c1|] eqn:F; [|discriminate]. destruct (Nat.leb_spec (List.length (filter appendingb (rcThreads c1))) 1); [|discriminate].
  intro E. eapply serial_trans; [|apply IH; exact E]. cbn [follow] in F.
  destruct (nth_error _ _) as [t|] eqn:T; [|discriminate]. destruct (tstep _ _ _) as [[m t']|] eqn:Q; [|discriminate].
  injection F as <-. eapply serial_step; [constructor| |now apply one_check]. eapply follow_step; eauto.
Qed.
Definition serial_schedule : list (nat * nat) :=
  (repeat (2, 0) 11 ++ repeat (0, 0) 4 ++ repeat (1, 0) 3 ++ repeat (0, 0) 5 ++ repeat (1, 0) 3)%list.
Lemma serial_sample : exists c, serial_run (started render_p render_d render_c) c /\ rdone c /\
  final_roles c = ["Default"; "Terse"] /\ final_langs c = ["Unlabelled"; "Truncated"; "es - español"].
Proof.
  destruct (follow_serial serial_schedule (started render_p render_d render_c)) as [c|] eqn:F.
  - exists c. split; [eapply follow_serial_run; eauto|]. vm_compute in F. injection F as <-.
    split; [|split; vm_compute; reflexivity]. intros t H. simpl in H.
    repeat (destruct H as [<-|H]; [reflexivity|]). contradiction.
  - exfalso. vm_compute in F. discriminate F.
Qed.
Example C33_example : exists c, serial_run (started render_p render_d render_c) c /\ rdone c.
Proof.
  destruct serial_sample as (c&R&D&_). eauto.
Qed.

(** ** C52: the period headers of a renderable *)
Definition plain_header (h : list (string * string)) : Prop := exists iso, h = [("Unlabelled", iso)].
Lemma foldM_inv {A B} (P : A -> Prop) (f : A -> B -> res A) l a a' :
  (forall a x a', P a -> f a x = Ok a' -> P a') -> P a -> foldM f l a = Ok a' -> P a'.
Proof.
  intro H. revert a. induction l as [|x l IH]; intros a Pa; cbn [foldM]; [intros [= <-]; auto|].
  destruct (f a x) as [b| |] eqn:E; cbn [bind]; try discriminate. apply IH. eauto.
Qed.
Lemma columns_plain tree lbl concept_of typed_order subject insts hrefs cols seg scen packs :
  get_relevant_contexts tree lbl concept_of typed_order subject insts hrefs = Ok (cols, seg, scen, packs) ->
  Forall plain_header (get_period_headers cols).
Proof.
  intro E. destruct (relevant_spec tree lbl concept_of typed_order subject insts hrefs)
    as [[_ P]|[_ (css & F & G)]]; [congruence|].
  rewrite G in E. injection E as <- _ _ _. apply Forall_forall. intros h H. unfold get_period_headers in H.
  apply in_map_iff in H as (r&<-&H). unfold sort_contexts in H. rewrite isort_in in H.
  apply in_map_iff in H as (c&<-&_). unfold mk_col, period_string. cbn [fst rcPeriod]. eexists. reflexivity.
Qed.
Lemma p_plain tree lbl concept_of g entity role lbs p roles langs :
  p_grid_of tree lbl concept_of g entity role lbs = Ok (p, roles, langs) -> Forall plain_header (pgPeriods p).
Proof.
  unfold p_grid_of. destruct (get_indented_labels _ _ _ _) as [labels packs].
  destruct (get_relevant_contexts _ _ _ _ _ _ _) as [[[[cols seg] scen] cp]| |] eqn:E; cbn [bind]; try discriminate.
  destruct (ge_destruct _ _) as [rs ls]. destruct (get_factual_quadrant _ _ _ _ _ _ _) as [[[f g0] n]| |]; cbn [bind]; try discriminate.
  destruct (get_member_grid _ _ _ _) as [[m v]| |]; cbn [bind]; try discriminate.
  intros [= <- _ _]. cbn [pgPeriods]. eapply columns_plain; eauto.
Qed.
Lemma c_plain tree lbl concept_of genv entity order role lbs items roles langs :
  get_summation_items tree lbl concept_of genv entity order role lbs = Ok (items, roles, langs) ->
  Forall (fun si => Forall plain_header (siPeriods si)) items.
Proof.
  unfold get_summation_items. destruct (calc_link role [] lbs) as [[lb k]|]; [|intros [= <- _ _]; constructor].
  cbv zeta. destruct (foldM _ _ _) as [st| |] eqn:E; cbn [bind]; try discriminate. intros [= <- _ _].
  assert (P : Forall (fun si => Forall plain_header (siPeriods si)) (stItems st)).
  { revert E. apply foldM_inv with (P := fun st => Forall (fun si => Forall plain_header (siPeriods si)) (stItems st));
      [|constructor].
    intros a [from slice] a' PA. unfold c_source.
    destruct (get_relevant_contexts _ _ _ _ _ _ _) as [[[[cols seg] scen] cp]| |] eqn:E; cbn [bind]; try discriminate.
    destruct (ge_destruct _ _) as [rs ls]. destruct (get_factual_quadrant _ _ _ _ _ _ _) as [[[f g0] n]| |]; cbn [bind]; try discriminate.
    destruct (concept_of from); [|intros [= <-]; exact PA].
    destruct (get_member_grid _ _ _ _) as [[m v]| |]; cbn [bind]; try discriminate.
    intros [= <-]. cbn [stItems]. apply Forall_app. split; auto. constructor; auto. cbn [siPeriods]. eapply columns_plain; eauto. }
  apply Forall_forall. intros x Hx. rewrite isort_in in Hx. rewrite Forall_forall in P. auto.
Qed.
Lemma d_plain tree lbl concept_of genv dims_order fo order entity role lbs lbs' d roles langs :
  d_grid_of tree lbl concept_of genv dims_order fo order entity role lbs lbs' = Ok (d, roles, langs) ->
  Forall (fun r => Forall plain_header (rdPeriods r)) (dgRootDomains d).
Proof.
  unfold d_grid_of, get_root_domains. destruct (foldM _ _ _) as [st| |] eqn:E; cbn [bind]; try discriminate.
  intros [= <- _ _]. cbn [dgRootDomains]. revert E.
  apply foldM_inv with (P := fun st => Forall (fun r => Forall plain_header (rdPeriods r)) (dsRet st)); [|constructor].
  intros a lb a' PA. revert PA. intros PA.
  apply foldM_inv with (P := fun st => Forall (fun r => Forall plain_header (rdPeriods r)) (dsRet st)); [|exact PA].
  clear a a' PA. intros a k a' PA. unfold d_link. destruct (ge_destruct _ _) as [r0 l0]. destruct (link_networks _ _) as [pr w].
  apply foldM_inv with (P := fun st => Forall (fun r => Forall plain_header (rdPeriods r)) (dsRet st)); [|exact PA].
  clear a a' PA. intros a root a' PA. unfold d_root. destruct (get_effective_domain_grid _ _ _ _ _) as [ed el].
  destruct (get_relevant_contexts _ _ _ _ _ _ _) as [[[[cols seg] scen] cp]| |] eqn:E; cbn [bind]; try discriminate.
  destruct (get_member_grid _ _ _ _) as [[m v]| |]; cbn [bind]; try discriminate.
  destruct (ge_destruct _ _) as [rs ls]. destruct (get_factual_quadrant _ _ _ _ _ _ _) as [[[f g0] n]| |]; cbn [bind]; try discriminate.
  intros [= <-]. cbn [dsRet]. apply Forall_app. split; auto. constructor; auto. cbn [rdPeriods]. eapply columns_plain; eauto.
Qed.
Lemma moment_english es r : shown_moment "as of " us_date ("/" ++ r) (format_date es "en - english" ("/" ++ r)).
Proof.
  exists r. split; auto. change (format_date es "en - english" ("/" ++ r)) with (format_english_dates "" r). unfold format_english_dates.
  destruct (parse_date r) as [d|] eqn:E.
  - left. exists (format_us d). split; auto. apply us_date_iff. exists d. split; auto. now apply parse_date_iff.
  - right. split; [|reflexivity]. intros t T. apply us_date_iff in T as (d&D&_). apply parse_date_iff in D. congruence.
Qed.
Lemma moment_spanish es r : shown_moment "al " (fun s t => exists d, is_date s d /\ es d = Some t) ("/" ++ r) (format_date es "es - español" ("/" ++ r)).
Proof.
  exists r. split; auto. change (format_date es "es - español" ("/" ++ r)) with (format_spanish_dates es "" r). unfold format_spanish_dates.
  destruct (parse_date r) as [d|] eqn:E; [destruct (es d) as [t|] eqn:T|].
  - left. exists t. split; auto. exists d. split; auto. now apply parse_date_iff.
  - right. split; [|reflexivity]. intros t (d'&D&T'). apply parse_date_iff in D. congruence.
  - right. split; [|reflexivity]. intros t (d'&D&T'). apply parse_date_iff in D. congruence.
Qed.
Lemma text_of es lang iso : header_text es lang iso (format_date es lang iso).
Proof.
  split; [|split; [|split; [|split]]].
  - intros -> (r&->). apply moment_english.
  - intros -> (r&->). apply moment_spanish.
  - intros -> H. now apply C51_english with (es := es).
  - intros -> H. now apply C51_spanish with (es := es).
  - apply C51_other_languages.
Qed.
(** Every period header of every grid shows its period unlabelled and in each language that is
    offered, whatever the schedule. *)
Theorem C52_renderable :
  forall tree lbl concept_of gp gd gc entity role dims_order format_order order corder pres defs defs' calcs es p d cg c,
    p = p_grid_of tree lbl concept_of gp entity role pres ->
    d = d_grid_of tree lbl concept_of gd dims_order format_order order entity role defs defs' ->
    cg = get_summation_items tree lbl concept_of gc entity corder role calcs ->
    rsteps (started p d cg) c -> rdone c ->
    forall g roles langs h, rendered es p d cg c = (g, roles, langs) -> period_header g h ->
      is_map h /\ exists iso, In ("Unlabelled", iso) h /\
        (forall lang, lang <> "Unlabelled" -> In lang (map fst h) <-> In lang langs) /\
        (forall lang text, lang <> "Unlabelled" -> In (lang, text) h -> header_text es lang iso text).
Proof.
  intros tree lbl concept_of gp gd gc entity role dims_order fo order corder pres defs defs' calcs es p d cg c
    Ep Ed Ec R D g roles langs h E H.
  assert (K : exists h0, plain_header h0 /\ h = format_header es langs h0).
  { unfold rendered in E. injection E as <- <- <-. destruct H as [h H|r h Hr H|s h Hs H].
    - cbn [gdP format_p pgPeriods] in H. apply in_map_iff in H as (h0&<-&H). exists h0. split; auto.
      destruct p as [[[p0 rs] ls]| |] eqn:Q; cbn [grid_or] in H; try contradiction.
      symmetry in Ep. apply p_plain in Ep. rewrite Forall_forall in Ep. auto.
    - cbn [gdD format_d dgRootDomains] in Hr. apply in_map_iff in Hr as (r0&<-&Hr). cbn [format_root rdPeriods] in H.
      apply in_map_iff in H as (h0&<-&H). exists h0. split; auto.
      destruct d as [[[d0 rs] ls]| |] eqn:Q; cbn [grid_or] in Hr; try contradiction.
      symmetry in Ed. apply d_plain in Ed. rewrite Forall_forall in Ed. specialize (Ed _ Hr). rewrite Forall_forall in Ed. auto.
    - cbn [gdC] in Hs. apply in_map_iff in Hs as (s0&<-&Hs). cbn [format_item siPeriods] in H.
      apply in_map_iff in H as (h0&<-&H). exists h0. split; auto.
      destruct cg as [[[cg0 rs] ls]| |] eqn:Q; cbn [grid_or] in Hs; try contradiction.
      symmetry in Ec. apply c_plain in Ec. rewrite Forall_forall in Ec. specialize (Ec _ Hs). rewrite Forall_forall in Ec. auto. }
  destruct K as (h0&[iso ->]&->).
  assert (M : is_map [("Unlabelled", iso)]) by (repeat constructor; simpl; auto).
  pose proof (C52_header es langs [("Unlabelled", iso)]) as HD.
  split; [now apply (HD "" "")|]. exists iso. split; [|split].
  - apply (HD "Unlabelled" iso M). right. split; [now left|]. intros (_&N&_). now apply N.
  - intros lang N. split.
    + intro I. apply in_map_iff in I as ([l t]&<-&I). apply (HD l t M) in I as [(?&_&I&_)|[[[= <- <-]|[]] _]]; auto.
      now contradiction N.
    + intro I. apply in_map_iff. exists (lang, format_date es lang iso). split; auto.
      apply (HD lang (format_date es lang iso) M). left. exists iso. repeat split; auto. now left.
  - intros lang text N I. apply (HD lang text M) in I as [(iso'&I'&_&_&->)|[[[= <- <-]|[]] _]].
    + destruct I' as [[= <-]|[]]. apply text_of.
    + now contradiction N.
Qed.
Print Assumptions C52_renderable.
Example C52_renderable_example : exists c g roles langs,
  rsteps (started render_p render_d render_c) c /\ rdone c /\
  rendered (fun _ => Some "31 diciembre 2020") render_p render_d render_c c = (g, roles, langs) /\
  period_header g [("Unlabelled", "2020-01-01/2020-12-31"); ("Truncated", "2020-01-01/2020-12-31");
                   ("es - español", "12 meses terminados al 31 diciembre 2020")].
Proof.
  destruct serial_sample as (c&R&D&Er&El). exists c. do 3 eexists. split; [|split; [exact D|split; [reflexivity|]]].
  - clear - R. induction R; [constructor|econstructor; eauto].
  - apply ph_p. cbn [gdP]. rewrite El. vm_compute. auto.
Qed.

(** ** C92 *)
Theorem C92_refuted :
  ~ (forall es p d cg c g roles langs cell lang, serial_run (started p d cg) c -> rdone c ->
       rendered es p d cg c = (g, roles, langs) -> fact_cell g cell -> ~ blank_cell cell ->
       In lang langs -> In lang ["en - english"; "es - español"; "Unlabelled"] -> In lang (map fst cell)) /\
  exists c, serial_run (started render_p render_d render_c) c /\ rdone c /\
    forall es, In "es - español" (snd (rendered es render_p render_d render_c c)) /\
      fact_cell (fst (fst (rendered es render_p render_d render_c c))) [("Unlabelled", FactExpression "" "12" "" "")].
Proof.
  assert (W : exists c, serial_run (started render_p render_d render_c) c /\ rdone c /\
    forall es, In "es - español" (snd (rendered es render_p render_d render_c c)) /\
      fact_cell (fst (fst (rendered es render_p render_d render_c c))) [("Unlabelled", FactExpression "" "12" "" "")]).
  { destruct serial_sample as (c&R&D&Er&El). exists c. split; auto. split; auto. intro es. split.
    - cbn [rendered snd]. rewrite El. simpl. auto.
    - apply fc_p with (row := [[("Unlabelled", FactExpression "" "12" "" "")]]); [|now left].
      cbn [rendered fst gdP format_p pgFacts]. vm_compute. auto. }
  split; auto. intro H. destruct W as (c&R&D&W). destruct (W (fun _ => None)) as [W1 W2].
  specialize (H (fun _ => None) _ _ _ c _ _ _ _ "es - español" R D eq_refl W2).
  destruct H as [[=]|[]]; auto; [|simpl; auto]. intros [[=]|[=]].
Qed.
Print Assumptions C92_refuted.
(** What holds: a fact of the presentation grid is shown in the (supported) languages that grid
    contributes. *)
Theorem C92_own_languages_partial :
  forall tree lbl concept_of gp entity role pres p roles langs row cell,
    p_grid_of tree lbl concept_of gp entity role pres = Ok (p, roles, langs) ->
    In row (pgFacts p) -> In cell row ->
    blank_cell cell \/
    (is_map cell /\ forall lang, In lang (map fst cell) <-> In lang langs /\ In lang ["en - english"; "es - español"; "Unlabelled"]).
Proof.
  intros tree lbl concept_of gp entity role pres p roles langs row cell E Hr Hc. revert E.
  unfold p_grid_of. destruct (get_indented_labels _ _ _ _) as [labels packs].
  destruct (get_relevant_contexts _ _ _ _ _ _ _) as [[[[cols seg] scen] cp]| |] eqn:E; cbn [bind]; try discriminate.
  destruct (ge_destruct _ _) as [rs ls].
  destruct (get_factual_quadrant _ _ _ _ _ _ _) as [[[f g0] n]| |] eqn:F; cbn [bind]; try discriminate.
  destruct (get_member_grid _ _ _ _) as [[m v]| |]; cbn [bind]; try discriminate.
  intros [= <- <- <-]. cbn [pgFacts] in Hr.
  destruct (map ilHref labels) as [|h t] eqn:EL; [cbn in F; injection F as <- _ _; contradiction|].
  destruct cols as [|c0 u]; [cbn in F; injection F as <- _ _; contradiction|].
  apply quadrant_inv in F as (F&_&_); try discriminate.
  destruct (Forall2_In_r _ _ _ _ F Hr) as (x&_&F'). destruct (Forall2_In_r _ _ _ _ F' Hc) as (y&_&R).
  destruct (fact_at _ _ _ _ _) as [fa|].
  - destruct (fIsNil fa) eqn:N.
    + rewrite (proj2 (C75_no_fact _ _ fa N)) in R. injection R as <-. left. now right.
    + destruct (C75_languages (ce_render (ge_cell gp (fst x) (fst y))) fa ls N) as (m'&R'&M&L).
      rewrite R in R'. injection R' as <-. right. auto.
  - cbn in R. injection R as <-. left. now left.
Qed.
Print Assumptions C92_own_languages_partial.
Example C92_example : exists p row cell, render_p = Ok (p, ["Default"], ["Unlabelled"; "Truncated"]) /\
  In row (pgFacts p) /\ In cell row /\ ~ blank_cell cell.
Proof.
  destruct render_example as (p&d&c&E&_). exists p. assert (E' := E). vm_compute in E'. injection E' as <-.
  do 2 eexists. split; [exact E|]. split; [now left|]. split; [now left|]. intros [[=]|[=]].
Qed.
