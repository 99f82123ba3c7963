(** * ExpressProofs *)
From Verif Require Import GoBase GoSpec GoFacts AttrModel SchemaModel LinkbaseModel InstanceModel HydrateModel
  LabelModel LabelSpec LabelProofs PeriodModel PeriodSpec PeriodProofs FactModel GridModel GridSpec GridProofs
  ExpressModel ExpressSpec.
Local Open Scope string_scope.

(** ** makeIndents does not crash *)
Section Calm.
  Variables dims typed : list (string * labelled).
  (** with a dimension at hand *)
  Definition calm (f : vq_state -> res vq_state) : Prop :=
    forall d ret, exists d' ret', f (Some d, ret) = Ok (Some d', ret').
  Definition sound (f : vq_state -> res vq_state) : Prop := forall st, exists st', f st = Ok st'.
  Lemma run_calm l : Forall calm l -> calm (run l).
  Proof.
    induction 1 as [|f l Hf Hl IH]; intros d ret; cbn [run]; eauto.
    destruct (Hf d ret) as (d' & ret' & ->). cbn [bind]. apply IH.
  Qed.
  Lemma run_sound l : Forall sound l -> sound (run l).
  Proof.
    induction 1 as [|f l Hf Hl IH]; intros st; cbn [run]; eauto.
    destruct (Hf st) as (st' & ->). cbn [bind]. apply IH.
  Qed.
  Lemma indents_calm paren r : forall level, 1 <= level -> calm (make_indents dims typed r paren level).
  Proof.
    induction r as [l o cs IH] using rarc_rect'. intros level HL d ret. rewrite make_indents_eq. cbn [fst snd].
    assert (RC : calm (run (map (fun c => make_indents dims typed c paren (S level)) (isort by_order cs)))).
    { apply run_calm. apply Forall_forall. intros f Hf. apply in_map_iff in Hf. destruct Hf as (c & <- & Hc).
      rewrite isort_in in Hc. rewrite Forall_forall in IH. apply IH; auto. }
    assert (B : forall b : bool, exists ret1, (if b then Ok (ret ++ [VoidCell paren level d None])%list else Ok ret) = Ok ret1)
      by (intros []; eauto).
    destruct (B (Nat.eqb level 1)) as (ret1 & ->). cbn [bind].
    destruct (_ && _)%bool; [|apply RC]. destruct (sget l typed); [apply RC|eauto].
  Qed.
  Lemma indents_first paren r : ra_locator r <> "" -> sound (make_indents dims typed r paren 1).
  Proof.
    destruct r as [l o cs]. cbn [ra_locator]. intros NE [[d|] ret].
    - destruct (indents_calm paren (RArc l o cs) 1 (le_n 1) d ret) as (d' & ret' & ->). eauto.
    - apply nonempty_iff in NE. destruct (sget l dims) as [d|] eqn:E.
      + assert (EQ : make_indents dims typed (RArc l o cs) paren 1 (None, ret) =
                     make_indents dims typed (RArc l o cs) paren 1 (Some d, ret)).
        { rewrite !make_indents_eq. cbn [fst snd]. rewrite NE, E. reflexivity. }
        rewrite EQ. destruct (indents_calm paren (RArc l o cs) 1 (le_n 1) d ret) as (d' & ret' & ->). eauto.
      + rewrite make_indents_eq. cbn [fst snd]. rewrite NE, E. eauto.
  Qed.
  Lemma indents_top paren r :
    (forall c, In c (ra_children r) -> ra_locator c <> "") -> sound (make_indents dims typed r paren 0).
  Proof.
    destruct r as [l o cs]. cbn [ra_children]. intros H st. rewrite make_indents_eq.
    assert (RS : sound (run (map (fun c => make_indents dims typed c paren 1) (isort by_order cs)))).
    { apply run_sound. apply Forall_forall. intros f Hf. apply in_map_iff in Hf. destruct Hf as (c & <- & Hc).
      rewrite isort_in in Hc. apply indents_first; auto. }
    destruct (match fst st with None => _ | Some _ => _ end) as [[dim ret]|]; [|eauto].
    cbn [Nat.eqb bind Nat.ltb Nat.leb andb]. apply RS.
  Qed.
End Calm.

Definition named_tree (r : rarc) : Prop := forall c, In c (ra_children r) -> ra_locator c <> "".
Lemma reduced_named trees : Forall named_tree trees -> named_tree (reduce_trees trees).
Proof.
  intros F c Hc.
  destruct (forallb (fun r => String.eqb (ra_locator r) "" &&
                       match ra_children r with [] => false | _ => true end) trees) eqn:E.
  - assert (NT : Forall nonempty_tree trees).
    { rewrite forallb_forall in E. apply Forall_forall. intros t Ht. specialize (E t Ht).
      apply andb_true_iff in E. destruct E as [E1 E2]. apply String.eqb_eq in E1. split; auto.
      destruct (ra_children t); congruence. }
    destruct (reduced_shape trees NT) as (_ & H & _). destruct (H c Hc) as (t & d & Ht & Hd & ->).
    rewrite Forall_forall in F. now apply (F t Ht).
  - unfold reduce_trees in Hc. rewrite E in Hc. destruct Hc.
Qed.
Lemma member_grid_ok mo cols seg scen :
  Forall named_tree seg -> Forall named_tree scen -> exists g v, get_member_grid mo cols seg scen = Ok (g, v).
Proof.
  intros F1 F2. unfold get_member_grid. destruct cols as [|c cs]; [eauto|].
  unfold get_void_quadrant. cbv zeta.
  assert (S : forall l, Forall named_tree l -> Forall named_tree (isort locator_less l)).
  { intros l F. rewrite Forall_forall in *. intros t Ht. rewrite isort_in in Ht. auto. }
  destruct (indents_top (all_dimension_map (dimension_members (c :: cs)))
             (all_typed_domain_map (dimension_members (c :: cs))) false _
             (reduced_named _ (S _ F1))
             (None, flat_map (fun h =>
                (explicit_row mo (explicit_dimension_map true (dimension_members (c :: cs))) h
                 ++ explicit_row mo (explicit_dimension_map false (dimension_members (c :: cs))) h)%list)
               (isort String.ltb (map fst (all_dimension_map (dimension_members (c :: cs))))))) as (st & ->).
  cbn [bind].
  destruct (indents_top (all_dimension_map (dimension_members (c :: cs)))
             (all_typed_domain_map (dimension_members (c :: cs))) true _
             (reduced_named _ (S _ F2)) st) as (st' & ->).
  cbn [bind]. eauto.
Qed.

(** ** The columns for one concept *)
Section Columns.
  Variable tree : list arc -> string -> rarc.
  Variable lbl : string -> label_pack.
  Variable concept_of : string -> option concept.
  Variable typed_order : context -> typed_member -> list (string * string).
  Notation mk := (mk_col tree lbl typed_order).

  (** where the trees come from *)
  Lemma relevant_trees subject insts hrefs cols seg scen packs :
    get_relevant_contexts tree lbl concept_of typed_order subject insts hrefs = Ok (cols, seg, scen, packs) ->
    exists cs, cols = sort_contexts (map (fun c => fst (mk c)) cs) /\
      (forall c, In c cs <-> exists i, In i insts /\ reported_in concept_of i subject hrefs c) /\
      (forall t, In t (seg ++ scen)%list <->
         exists c ty, In c cs /\ In ty (typed_of c) /\ t = tree (tdom_arcs (tmArcs ty)) typedDomainArcRole).
  Proof.
    intro E. destruct (relevant_spec tree lbl concept_of typed_order subject insts hrefs)
      as [[_ P]|[_ (css & F & G)]]; [congruence|].
    rewrite G in E. injection E as <- <- <- _. exists (concat css). split; [reflexivity|]. split.
    - intro c. rewrite in_concat. split.
      + intros (cs & Hcs & Hc). destruct (Forall2_In_r _ _ _ _ F Hcs) as (i & Hi & _ & H). exists i. split; auto. now apply H.
      + intros (i & Hi & R). destruct (Forall2_In_l _ _ _ _ F Hi) as (cs & Hcs & _ & H). exists cs. split; auto. now apply H.
    - intro t. rewrite in_app_iff, !in_flat_map. split.
      + intros [(c & Hc & Ht)|(c & Hc & Ht)]; cbn in Ht; apply in_map_iff in Ht;
          destruct Ht as (ty & <- & Hty); exists c, ty; (split; [auto|split; [apply in_or_app; auto|reflexivity]]).
      + intros (c & ty & Hc & Hty & ->). apply in_app_or in Hty. destruct Hty as [Hty|Hty]; [left|right];
          (exists c; split; [exact Hc|]; cbn; unfold typed_trees; apply in_map_iff; eauto).
  Qed.
  (** the expressed column *)
  Lemma expressed_one ref i subject href cols seg scen packs c :
    get_relevant_contexts tree lbl concept_of typed_order subject [i] [href] = Ok (cols, seg, scen, packs) ->
    reported_in concept_of i subject [href] c -> ctxID c = ref ->
    expressed ref cols = [fst (mk c)].
  Proof.
    intros E R ID.
    destruct (relevant_spec tree lbl concept_of typed_order subject [i] [href])
      as [[_ P]|[_ (css & F & G)]]; [congruence|].
    rewrite G in E. injection E as <- _ _ _. inversion F as [|? cs ? css' [ND H] F']; subst. inversion F'; subst.
    cbn [concat]. rewrite app_nil_r. unfold expressed.
    set (l := sort_contexts (map (fun c => fst (mk c)) cs)).
    assert (HL : forall r, In r l <-> exists c, In c cs /\ r = fst (mk c)).
    { intro r. unfold l, sort_contexts. rewrite isort_in, in_map_iff. split; intros (x & A & B); exists x; split; auto. }
    assert (HC : In c cs) by now apply H.
    fold l. match goal with |- context [find ?p ?m] => change m with l; destruct (find p l) as [r|] eqn:EF end.
    - apply find_some in EF. destruct EF as [Hr EQ]. apply HL in Hr. destruct Hr as (c' & Hc' & ->).
      apply String.eqb_eq in EQ. cbn in EQ. f_equal. f_equal. f_equal.
      clear -ND HC Hc' EQ. revert ND. induction cs as [|a cs IH]; intro ND; [destruct HC|].
      cbn [map] in ND. inversion ND as [|? ? NI ND']; subst.
      destruct HC as [->|HC], Hc' as [->|Hc']; auto.
      + exfalso. apply NI. apply in_map_iff. exists c'. auto.
      + exfalso. apply NI. apply in_map_iff. exists c. auto.
    - apply find_none with (x := fst (mk c)) in EF; [|apply HL; eauto]. cbn in EF.
      rewrite String.eqb_refl in EF. discriminate.
  Qed.
End Columns.

(** ** The period *)
Lemma has_language_iff labels l : has_language labels l <-> In l (flat_map (fun kv => map fst (snd kv)) labels).
Proof.
  unfold has_language. rewrite in_flat_map. split.
  - intros (role & texts & text & H1 & H2). exists (role, texts). split; auto. cbn. now apply (in_map fst) in H2.
  - intros ([role texts] & H1 & H2). cbn in H2. apply in_map_iff in H2. destruct H2 as ([l' text] & E & H2).
    cbn in E. subst l'. eauto.
Qed.
Section Period.
  Variable es : date -> option string.
  Lemma append_langs labels start end_ m : is_map m ->
    (forall t, ~ In (English, t) m) -> (forall t, ~ In (Español, t) m) ->
    is_map (append_period_langs es m labels start end_) /\
    forall lang text, In (lang, text) (append_period_langs es m labels start end_) <->
      In (lang, text) m \/
      (lang = English /\ has_language labels lang /\ text = format_english_dates start end_) \/
      (lang = Español /\ has_language labels lang /\ text = format_spanish_dates es start end_).
  Proof.
    intros M N1 N2. unfold append_period_langs.
    set (ls := flat_map (fun kv => map fst (snd kv)) labels).
    assert (HL : forall l, has_language labels l <-> In l ls) by (intro; apply has_language_iff).
    clearbody ls.
    assert (G : forall m', is_map m' ->
      let r := fold_left (fun m lang =>
        if String.eqb lang English then sset English (format_english_dates start end_) m
        else if String.eqb lang Español then sset Español (format_spanish_dates es start end_) m
        else m) ls m' in
      is_map r /\ forall lang text, In (lang, text) r <->
        (lang = English /\ In lang ls /\ text = format_english_dates start end_) \/
        (lang = Español /\ In lang ls /\ text = format_spanish_dates es start end_) \/
        (~ (In lang ls /\ (lang = English \/ lang = Español)) /\ In (lang, text) m')).
    { clear HL. induction ls as [|a ls IH]; intros m' M'; cbn [fold_left]; cbv zeta.
      - split; auto. intros lang text. simpl. tauto.
      - destruct (String.eqb_spec a English) as [->|NE].
        + destruct (IH (sset English (format_english_dates start end_) m')) as [R1 R2]; [now apply sset_is_map|].
          cbv zeta in R1, R2. split; auto. intros lang text. rewrite R2. rewrite (sset_In_iff English _ m' lang text M').
          simpl. destruct (string_dec lang English) as [->|NL].
          * split.
            -- intros [(_ & A & B)|[(C & _)|(A & [[_ B]|[B _]])]]; [auto|discriminate|auto|now elim B].
            -- intros [(_ & A & B)|[(C & _)|(A & _)]]; [|discriminate|tauto].
               destruct (in_dec string_dec English ls); [left; auto|]. right. right. split; [tauto|]. left. auto.
          * split.
            -- intros [(A & _)|[(A & B & C)|(A & [[B _]|[_ B]])]]; [tauto| |tauto|].
               ++ right. left. auto.
               ++ right. right. split; auto. intros [[?|?] ?]; [congruence|tauto].
            -- intros [(A & _)|[(A & [B|B] & C)|(A & B)]]; [tauto|congruence|auto|].
               right. right. split; [|right; auto]. tauto.
        + destruct (String.eqb_spec a Español) as [->|NS].
          * destruct (IH (sset Español (format_spanish_dates es start end_) m')) as [R1 R2]; [now apply sset_is_map|].
            cbv zeta in R1, R2. split; auto. intros lang text. rewrite R2. rewrite (sset_In_iff Español _ m' lang text M').
            simpl. destruct (string_dec lang Español) as [->|NL].
            -- split.
               ++ intros [(A & _)|[(_ & A & B)|(A & [[_ B]|[B _]])]]; [discriminate| | |congruence]; right; left; auto.
               ++ intros [(A & _)|[(_ & A & B)|(A & _)]]; [discriminate| |tauto].
                  destruct (in_dec string_dec Español ls); [right; left; auto|]. right. right. split; [tauto|]. left. auto.
            -- split.
               ++ intros [(A & B & C)|[(A & _)|(A & [[B _]|[_ B]])]]; [left; auto|tauto|tauto|].
                  right. right. split; auto. intros [[?|?] ?]; [congruence|tauto].
               ++ intros [(A & [B|B] & C)|[(A & _)|(A & B)]]; [congruence|auto|tauto|].
                  right. right. split; [|right; auto]. tauto.
          * destruct (IH m' M') as [R1 R2]. split; auto. intros lang text. rewrite R2. simpl.
            split.
            -- intros [(A & B & C)|[(A & B & C)|(A & B)]]; [left; auto|right; left; auto|].
               right. right. split; auto. intros [[?|?] [?|?]]; subst; try congruence; tauto.
            -- intros [(A & [B|B] & C)|[(A & [B|B] & C)|(A & B)]]; subst; try congruence; auto.
               right. right. split; auto. tauto. }
    destruct (G m M) as [R1 R2]. split; auto. intros lang text. rewrite R2, HL. split.
    - intros [A|[A|[A B]]]; auto.
    - intros [A|[A|A]]; auto. right. right. split; auto. intros [_ [->| ->]]; [now apply N1 in A|now apply N2 in A].
  Qed.
  Lemma english_dates start end_ : free_of "/" start -> (start = "" -> free_of "/" end_) ->
    format_english_dates start end_ = format_date es English (if nonempty start then start ++ "/" ++ end_ else end_).
  Proof.
    intros F1 F2. unfold format_date. destruct start as [|a s].
    - cbn [nonempty]. rewrite (proj2 (cut_None_iff "/" _)) by auto. reflexivity.
    - cbn [nonempty]. match goal with |- context [cut ?c ?x] => rewrite (proj2 (cut_Some_iff c x (String a s) end_)) by auto end. reflexivity.
  Qed.
  Lemma spanish_dates start end_ : free_of "/" start -> (start = "" -> free_of "/" end_) ->
    format_spanish_dates es start end_ = format_date es Español (if nonempty start then start ++ "/" ++ end_ else end_).
  Proof.
    intros F1 F2. unfold format_date. destruct start as [|a s].
    - cbn [nonempty]. rewrite (proj2 (cut_None_iff "/" _)) by auto. reflexivity.
    - cbn [nonempty]. match goal with |- context [cut ?c ?x] => rewrite (proj2 (cut_Some_iff c x (String a s) end_)) by auto end. reflexivity.
  Qed.
End Period.
Lemma period_spec es labels c : free_of "/" (ctxStart c) -> free_of "/" (ctxInstant c) ->
  is_map (period_multilingual_string es labels c) /\
  forall lang text, In (lang, text) (period_multilingual_string es labels c) <->
    (lang = "Unlabelled" /\ text = iso_period c) \/
    (lang = "Truncated" /\ iso_period c <> "" /\ text = iso_period c) \/
    (lang = "en - english" /\ iso_period c <> "" /\ has_language labels lang /\ format_date es English (iso_period c) = text) \/
    (lang = "es - español" /\ iso_period c <> "" /\ has_language labels lang /\ format_date es Español (iso_period c) = text).
Proof.
  intros F1 F2. unfold period_multilingual_string.
  assert (G : forall s start end_, s <> "" -> free_of "/" start -> (start = "" -> free_of "/" end_) ->
    (if nonempty start then start ++ "/" ++ end_ else end_) = s ->
    is_map (append_period_langs es [(PureLabel, s); (BriefLabel, s)] labels start end_) /\
    forall lang text, In (lang, text) (append_period_langs es [(PureLabel, s); (BriefLabel, s)] labels start end_) <->
    (lang = "Unlabelled" /\ text = s) \/ (lang = "Truncated" /\ s <> "" /\ text = s) \/
    (lang = "en - english" /\ s <> "" /\ has_language labels lang /\ format_date es English s = text) \/
    (lang = "es - español" /\ s <> "" /\ has_language labels lang /\ format_date es Español s = text)).
  { intros s start end_ NE A B E.
    destruct (append_langs es labels start end_ [(PureLabel, s); (BriefLabel, s)]) as [R1 R2].
    - repeat constructor; cbn; intuition discriminate.
    - intros t [H|[H|[]]]; discriminate.
    - intros t [H|[H|[]]]; discriminate.
    - split; auto. intros lang text. rewrite R2. rewrite (english_dates es), spanish_dates, E by auto.
      change English with "en - english" at 1. change Español with "es - español" at 1.
      cbn [In]. split.
      + intros [[H|[H|[]]]|[(H & K & L)|(H & K & L)]].
        * injection H as <- <-. left. auto.
        * injection H as <- <-. right. left. auto.
        * right. right. left. auto.
        * right. right. right. auto.
      + intros [[-> ->]|[(-> & _ & ->)|[(H & _ & K & L)|(H & _ & K & L)]]].
        * left. left. reflexivity.
        * left. right. left. reflexivity.
        * right. left. auto.
        * right. right. auto. }
  destruct (ctxStart c) as [|a s] eqn:ES.
  - replace (nonempty (ctxEnd c) && nonempty "")%bool with false by (now rewrite andb_false_r).
    assert (EI : iso_period c = ctxInstant c) by (unfold iso_period; now rewrite ES).
    destruct (nonempty (ctxInstant c)) eqn:NI.
    + apply nonempty_iff in NI. rewrite EI. apply (G _ "" (ctxInstant c)); auto.
    + rewrite EI. destruct (ctxInstant c); [|discriminate]. split; [repeat constructor; intros []|].
      intros lang text. cbn [In]. split.
      * intros [H|[]]. injection H as <- <-. auto.
      * intros [[-> ->]|[(_ & N & _)|[(_ & N & _)|(_ & N & _)]]]; auto; now elim N.
  - destruct (ctxEnd c) as [|b e] eqn:EE.
    + cbn [nonempty andb].
      assert (EI : iso_period c = ctxInstant c) by (unfold iso_period; now rewrite ES, EE).
      destruct (nonempty (ctxInstant c)) eqn:NI.
      * apply nonempty_iff in NI. rewrite EI. apply (G _ "" (ctxInstant c)); auto. unfold free_of. simpl. tauto.
      * rewrite EI. destruct (ctxInstant c); [|discriminate]. split; [repeat constructor; intros []|].
        intros lang text. cbn [In]. split.
        -- intros [H|[]]. injection H as <- <-. auto.
        -- intros [[-> ->]|[(_ & N & _)|[(_ & N & _)|(_ & N & _)]]]; auto; now elim N.
    + cbn [nonempty andb].
      assert (EI : iso_period c = String a s ++ "/" ++ String b e) by (unfold iso_period; now rewrite ES, EE).
      rewrite EI. apply (G _ (String a s) (String b e)); auto; discriminate.
Qed.

(** ** The members *)
Lemma count_one {A} (f : A -> string) l m e :
  count_occ string_dec (map f l) (f m) = 1 -> In m l -> In e l -> f e = f m -> e = m.
Proof.
  induction l as [|a l IH]; cbn [map count_occ]; [intros _ []|].
  intros C Hm He E. destruct (string_dec (f a) (f m)) as [EA|NA].
  - injection C as C. assert (N : ~ In (f m) (map f l)) by now apply (count_occ_not_In string_dec).
    destruct Hm as [->|Hm]; [|elim N; now apply in_map].
    destruct He as [<-|He]; auto. elim N. rewrite <- E. now apply in_map.
  - destruct Hm as [->|Hm]; [congruence|]. destruct He as [->|He]; [congruence|]. auto.
Qed.
Lemma count_in {A} (f : A -> string) l m : In m l -> 1 <= count_occ string_dec (map f l) (f m).
Proof. intro H. apply (count_occ_In string_dec). now apply in_map. Qed.
Lemma count_zero {A} (f : A -> string) l m e :
  count_occ string_dec (map f l) (f m) = 0 -> In e l -> f e <> f m.
Proof. intros C H E. apply (count_occ_not_In string_dec) in C. apply C. rewrite <- E. now apply in_map. Qed.

Section Members.
  Variable tree : list arc -> string -> rarc.
  Variable lbl : string -> label_pack.
  Variable typed_order : context -> typed_member -> list (string * string).
  Hypothesis TO : forall c t, Permutation (typed_order c t) (tmMap t).
  Variable mo : list (string * relevant_member) -> list (string * relevant_member).
  Hypothesis MO : forall l, Permutation (mo l) l.
  Notation mk := (mk_col tree lbl typed_order).

  Lemma column_members c m : In m (rcMembers (fst (mk c))) <->
    (exists e, In e (dcExplicit (ctxSegment c)) /\ m = RelevantMember (Labelled (emDimHref e) (lbl (emDimHref e)))
        (Some (Labelled (emMemHref e) (lbl (emMemHref e)))) "" None true) \/
    (exists e, In e (dcExplicit (ctxScenario c)) /\ m = RelevantMember (Labelled (emDimHref e) (lbl (emDimHref e)))
        (Some (Labelled (emMemHref e) (lbl (emMemHref e)))) "" None false) \/
    (exists t kv, In t (typed_of c) /\ In kv (typed_order c t) /\
       m = RelevantMember (Labelled (tmDimHref t) (lbl (tmDimHref t))) None (snd kv)
             (Some (Labelled (fst kv) (lbl (fst kv)))) false).
  Proof.
    cbn [fst mk_col rcMembers cxMembers get_contextual_members]. rewrite !in_app_iff.
    unfold explicit_members, typed_members, get_typed_member. rewrite !in_map_iff, !in_flat_map.
    split.
    - intros [(e & <- & H)|[(t & Ht & H)|[(e & <- & H)|(t & Ht & H)]]].
      + left. eauto.
      + apply in_map_iff in H. destruct H as (kv & <- & H). right. right. exists t, kv. split; auto.
        apply in_or_app; auto.
      + right. left. eauto.
      + apply in_map_iff in H. destruct H as (kv & <- & H). right. right. exists t, kv. split; auto.
        apply in_or_app; auto.
    - intros [(e & H & ->)|[(e & H & ->)|(t & kv & Ht & H & ->)]].
      + left. eauto.
      + right. right. left. eauto.
      + apply in_app_or in Ht. destruct Ht as [Ht|Ht].
        * right. left. exists t. split; auto. apply in_map_iff. eauto.
        * right. right. right. exists t. split; auto. apply in_map_iff. eauto.
  Qed.

  Lemma members_shown c seg scen :
    Forall (reported_tree [fst (mk c)]) seg -> Forall (reported_tree [fst (mk c)]) scen ->
    exists grid void, get_member_grid mo [fst (mk c)] seg scen = Ok (grid, void) /\
      (forall m, In m (explicit_of c) -> emDimHref m <> "" -> sole_member c m ->
        exists i v, nth_error void i = Some v /\
          vcDimension v = Labelled (emDimHref m) (lbl (emDimHref m)) /\ vcTypedDomain v = None /\
          nth_error grid i = Some [MemberCell (Some (Labelled (emMemHref m) (lbl (emMemHref m)))) ""]) /\
      (forall v, In v void -> exists m, In m (rcMembers (fst (mk c))) /\ rmDimension m = vcDimension v).
  Proof.
    intros F1 F2. set (col := fst (mk c)) in *. set (cols := [col]).
    assert (G1 : Forall (reported_tree cols) (isort locator_less seg)).
    { rewrite Forall_forall in *. intros t Ht. rewrite isort_in in Ht. now apply F1. }
    assert (G2 : Forall (reported_tree cols) (isort locator_less scen)).
    { rewrite Forall_forall in *. intros t Ht. rewrite isort_in in Ht. now apply F2. }
    destruct (void_spec mo (fun x => exists m, In m (dimension_members cols) /\ rmDimension m = x) cols _ _ G1 G2)
      as (rows & E & FR).
    { intros t d x _ _ S. apply dims_sound in S. destruct S as (_ & m & Hm & EM). eauto. }
    set (void := (explicit_rows mo (dimension_members cols) ++ rows)%list) in *.
    assert (DM : forall m, In m (dimension_members cols) -> In m (rcMembers col)).
    { intros m Hm. apply In_member in Hm. destruct Hm as (c' & [<-|[]] & Hm & _). exact Hm. }
    assert (ROWS : forall v, In v void -> exists m, In m (rcMembers col) /\ rmDimension m = vcDimension v).
    { intros v Hv. apply in_app_or in Hv. destruct Hv as [Hv|Hv].
      - apply (explicit_rows_In mo MO) in Hv. destruct Hv as (_ & _ & _ & m & e & Hm & _ & EM). eauto.
      - rewrite Forall_forall in FR. destruct (FR v Hv) as [(m & Hm & EM) _]. eauto. }
    exists (map (fun x => map (member_cell_at x) cols) void), void.
    split; [|split; [|exact ROWS]].
    - unfold get_member_grid, cols. fold cols. rewrite E. reflexivity.
    - intros m Hm NE [C1 C2].
      assert (X : exists flag, In (RelevantMember (Labelled (emDimHref m) (lbl (emDimHref m)))
                  (Some (Labelled (emMemHref m) (lbl (emMemHref m)))) "" None flag) (rcMembers col) /\
                forall m', In m' (rcMembers col) -> lbHref (rmDimension m') = emDimHref m ->
                  m' = RelevantMember (Labelled (emDimHref m) (lbl (emDimHref m)))
                         (Some (Labelled (emMemHref m) (lbl (emMemHref m)))) "" None flag).
      { unfold explicit_of in C1. rewrite map_app, count_occ_app in C1. apply in_app_or in Hm.
        destruct Hm as [Hm|Hm].
        - exists true. assert (K := count_in emDimHref _ _ Hm). split; [apply column_members; left; eauto|].
          intros m' Hm' EQ. apply column_members in Hm'.
          destruct Hm' as [(e & He & ->)|[(e & He & ->)|(t & kv & Ht & _ & ->)]]; cbn in EQ.
          + rewrite (count_one emDimHref (dcExplicit (ctxSegment c)) m e); auto. lia.
          + exfalso. refine (count_zero emDimHref _ m e _ He EQ). lia.
          + exfalso. eapply C2; eauto.
        - exists false. assert (K := count_in emDimHref _ _ Hm). split; [apply column_members; right; left; eauto|].
          intros m' Hm' EQ. apply column_members in Hm'.
          destruct Hm' as [(e & He & ->)|[(e & He & ->)|(t & kv & Ht & _ & ->)]]; cbn in EQ.
          + exfalso. refine (count_zero emDimHref _ m e _ He EQ). lia.
          + rewrite (count_one emDimHref (dcExplicit (ctxScenario c)) m e); auto. lia.
          + exfalso. eapply C2; eauto. }
      destruct X as (flag & Hx & UQ). set (x := RelevantMember _ _ _ _ flag) in *.
      destruct (explicit_rows_ex mo MO (dimension_members cols) x (Labelled (emMemHref m) (lbl (emMemHref m))))
        as (v & Hv & Ev & Tv); [eapply member_In; [left; reflexivity|exact Hx|exact NE]|reflexivity|].
      assert (Hv' : In v void) by (apply in_or_app; auto).
      destruct (ROWS v Hv') as (m' & Hm' & EM).
      apply In_nth_error in Hv'. destruct Hv' as [i Hi]. exists i, v. split; auto. split.
      { rewrite <- EM. rewrite (UQ m' Hm'); [reflexivity|]. rewrite EM, Ev. reflexivity. }
      split; auto. rewrite (map_nth_error _ _ _ Hi). unfold cols. cbn [map]. f_equal. f_equal.
      unfold member_cell_at. rewrite Tv, Ev.
      destruct (find _ (rcMembers col)) as [y|] eqn:EF.
      + apply find_some in EF. destruct EF as [Hy C]. apply andb_true_iff in C. destruct C as [K1 K2].
        apply String.eqb_eq in K1. rewrite (UQ y Hy K1). reflexivity.
      + exfalso. apply find_none with (x := x) in EF; auto. cbn in EF. rewrite String.eqb_refl in EF. discriminate.
  Qed.
End Members.
