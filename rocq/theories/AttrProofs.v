(** * AttrProofs: lemmas about AttrModel *)
From Verif Require Import GoBase GoFacts AttrModel AttrSpec.
Local Open Scope string_scope.

(** ** Attribute lookup *)
Lemma find_attr_Some attrs n a :
  find_attr attrs n = Some a <-> first_such (fun a => nlocal (aname a) = n) attrs a.
Proof.
  unfold find_attr. rewrite find_first_such.
  split; apply first_such_iff; intros y _; apply String.eqb_eq || (symmetry; apply String.eqb_eq).
Qed.
Lemma find_attr_None attrs n :
  find_attr attrs n = None <-> forall a, In a attrs -> nlocal (aname a) <> n.
Proof.
  unfold find_attr. rewrite find_None_iff.
  split; intros H x Hx; apply String.eqb_neq; auto.
Qed.
Lemma find_xpath_attr_Some attrs n a :
  find_xpath_attr attrs n = Some a <-> first_such (fun a => nlocal (qname a) = n) attrs a.
Proof.
  unfold find_xpath_attr. rewrite find_first_such.
  split; apply first_such_iff; intros y _; apply String.eqb_eq || (symmetry; apply String.eqb_eq).
Qed.
Lemma find_xpath_attr_None attrs n :
  find_xpath_attr attrs n = None <-> forall a, In a attrs -> nlocal (qname a) <> n.
Proof.
  unfold find_xpath_attr. rewrite find_None_iff.
  split; intros H x Hx; apply String.eqb_neq; auto.
Qed.

(** ** Qualified names *)
Lemma ns_bound attrs p : bound_ns attrs p (ns attrs p).
Proof.
  induction attrs as [|a t IH]; simpl.
  - right; split; [simpl; tauto|auto].
  - destruct (String.eqb_spec (nspace (aname a)) "xmlns") as [E1|N1];
    destruct (String.eqb_spec (nlocal (aname a)) p) as [E2|N2]; simpl.
    1: { left. exists a. split; auto. exists [], t; repeat split; simpl; auto; tauto. }
    all: assert (N : ~ is_decl p a) by (unfold is_decl; tauto);
      destruct IH as [(b&(l1&l2&->&Hb&Hn)&Hv)|[Hn Hv]];
      [ left; exists b; split; [|exact Hv]; exists (a :: l1), l2; repeat split; auto;
        try (apply Hb); intros y [<-|Hy]; auto
      | right; split; [|exact Hv]; intros b [<-|Hb]; auto ].
Qed.
Lemma bound_ns_fun attrs p v w : bound_ns attrs p v -> bound_ns attrs p w -> v = w.
Proof.
  intros [(a&Ha&->)|[Hn ->]] [(b&Hb&->)|[Hm ->]]; auto.
  - f_equal. eapply first_such_unique; eauto.
  - destruct Ha as (l1&l2&->&Ha&_). destruct (Hm a); auto. apply in_app_iff; simpl; auto.
  - destruct Hb as (l1&l2&->&Hb&_). destruct (Hn b); auto. apply in_app_iff; simpl; auto.
Qed.
Lemma default_ns_of attrs : default_of attrs (default_ns attrs).
Proof.
  unfold default_ns. destruct (find_attr attrs "xmlns") as [a|] eqn:E.
  - left. exists a. split; auto. now apply find_attr_Some.
  - right. split; auto. now apply find_attr_None.
Qed.
Lemma default_of_fun attrs v w : default_of attrs v -> default_of attrs w -> v = w.
Proof.
  intros [(a&Ha&->)|[Hn ->]] [(b&Hb&->)|[Hm ->]]; auto.
  - f_equal. eapply first_such_unique; eauto.
  - destruct Ha as (l1&l2&->&Ha&_). destruct (Hm a); auto. apply in_app_iff; simpl; auto.
  - destruct Hb as (l1&l2&->&Hb&_). destruct (Hn b); auto. apply in_app_iff; simpl; auto.
Qed.

Lemma xmlns_resolves attrs name : resolves attrs name (xmlns attrs name).
Proof.
  unfold xmlns. destruct (cut ":" name) as [[p l]|] eqn:E.
  - apply cut_Some_iff in E. destruct E as [-> F].
    destruct (nonempty l) eqn:L; simpl.
    + apply nonempty_iff in L. change (String ":" l) with (":" ++ l).
      destruct (String.eqb_spec (ns attrs p) "") as [E|N].
      * apply res_default; auto; [rewrite <- E; apply ns_bound | apply default_ns_of].
      * apply res_bound; auto. apply ns_bound.
    + apply nonempty_false in L; subst. now constructor.
  - apply cut_None_iff in E. constructor; auto. apply default_ns_of.
Qed.

Lemma colon_split_unique p l p' l' :
  free_of ":" p -> free_of ":" p' -> p ++ String ":" l = p' ++ String ":" l' -> p = p' /\ l = l'.
Proof.
  intros F F' E.
  assert (H : cut ":" (p ++ String ":" l) = Some (p, l)) by (apply cut_Some_iff; auto).
  rewrite E in H. assert (H' : cut ":" (p' ++ String ":" l') = Some (p', l')) by (apply cut_Some_iff; auto).
  rewrite H' in H. injection H; auto.
Qed.
Lemma not_free_colon p l : ~ free_of ":" (p ++ String ":" l).
Proof. rewrite free_of_app. simpl. intros [_ [H _]]. congruence. Qed.

Lemma resolves_fun attrs name x y : resolves attrs name x -> resolves attrs name y -> x = y.
Proof.
  intros Hx Hy. destruct Hx; inversion Hy; clear Hy; subst; simpl in *;
  repeat match goal with
  | H : free_of ":" (_ ++ String ":" _) |- _ => destruct (not_free_colon _ _ H)
  | E : ?a ++ String ":" ?b = ?c ++ String ":" ?d |- _ =>
      apply colon_split_unique in E; auto; destruct E; subst
  end; try congruence; f_equal;
  repeat match goal with
  | H : default_of ?a ?v, H' : default_of ?a ?w |- _ =>
      pose proof (default_of_fun _ _ _ H H'); clear H'; subst
  | H : bound_ns ?a ?p ?v, H' : bound_ns ?a ?p ?w |- _ =>
      pose proof (bound_ns_fun _ _ _ _ H H'); clear H'; subst
  end; congruence.
Qed.

(** ** Fresh prefixes *)
Fixpoint try_all (pf : list (string * string)) (cs : list string) : res string :=
  match cs with
  | [] => Panic
  | c :: t => match sget c pf with None => Ok c | Some _ => try_all pf t end
  end.

Lemma to_char_letter k : (k < 26)%nat ->
  exists c, nth_error letters k = Some c /\ to_char (S k) (Z.of_nat k) = Ok c.
Proof.
  intro H. do 26 (destruct k as [|k]; [eexists; split; reflexivity|]). lia.
Qed.

Lemma skipn_nth {A} k (l : list A) c : nth_error l k = Some c -> skipn k l = c :: skipn (S k) l.
Proof.
  revert l; induction k as [|k IH]; intros [|x l] H; simpl in *; try discriminate.
  - injection H; intros ->; auto.
  - now apply IH.
Qed.

Lemma new_prefix_loop_try o pf n : forall k curr, (k + n = 26)%nat ->
  new_prefix_loop (S (S n)) o pf curr k
  = try_all pf (curr :: map (fun c => o ++ "-" ++ c) (skipn k letters)).
Proof.
  induction n as [|n IH]; intros k curr E.
  - assert (k = 26)%nat by lia; subst. simpl. destruct (sget curr pf); reflexivity.
  - destruct (to_char_letter k) as (c&Hc&Ht); [lia|].
    rewrite (skipn_nth _ _ _ Hc). cbn [map].
    cbn [new_prefix_loop try_all]. destruct (sget curr pf); [|reflexivity].
    rewrite Ht. cbn [bind].
    specialize (IH (S k) (o ++ "-" ++ c)). cbn [new_prefix_loop] in IH.
    rewrite IH by lia. reflexivity.
Qed.

Lemma new_prefix_try o pf : new_prefix o pf = try_all pf (candidates o).
Proof. unfold new_prefix. rewrite (new_prefix_loop_try o pf 26) by lia. reflexivity. Qed.

Lemma try_all_spec pf cs :
  match try_all pf cs with
  | Ok p => first_such (fun c => ~ In c (map fst pf)) cs p
  | Panic => forall c, In c cs -> In c (map fst pf)
  | Err _ => False
  end.
Proof.
  induction cs as [|c t IH]; simpl; [tauto|].
  destruct (sget c pf) as [v|] eqn:E.
  - assert (I : In c (map fst pf)).
    { apply (mget_In _ seqP) in E. apply in_map_iff. exists (c, v); auto. }
    destruct (try_all pf t) as [p|m|]; auto.
    + destruct IH as (l1&l2&->&Hp&Hn). exists (c :: l1), l2. repeat split; auto.
      intros y [<-|Hy]; auto.
    + intros y [<-|Hy]; auto.
  - apply (mget_None _ seqP) in E. exists [], t. repeat split; auto.
Qed.

Lemma new_prefix_spec o pf :
  match new_prefix o pf with
  | Ok p => first_such (fun c => ~ In c (map fst pf)) (candidates o) p
  | Panic => forall c, In c (candidates o) -> In c (map fst pf)
  | Err _ => False
  end.
Proof. rewrite new_prefix_try. apply try_all_spec. Qed.

Lemma candidates_length o : length (candidates o) = 27%nat.
Proof. reflexivity. Qed.
Lemma append_right_inj a c d : a ++ c = a ++ d -> c = d.
Proof. apply append_inj_l. Qed.
Lemma self_append_neq o r : r <> "" -> o <> o ++ r.
Proof.
  intros N E. apply N. apply (append_inj_l o). rewrite <- E. now rewrite append_nil_r.
Qed.
Lemma candidates_NoDup o : NoDup (candidates o).
Proof.
  unfold candidates. constructor.
  - intro H. apply in_map_iff in H. destruct H as (c&H&_).
    symmetry in H. revert H. apply self_append_neq. simpl. discriminate.
  - assert (ND : NoDup (list_ascii_of_string "abcdefghijklmnopqrstuvwxyz")).
    { simpl. repeat constructor; simpl; intuition discriminate. }
    induction ND as [|c l Hc ND IH]; simpl; constructor; auto.
    intro H. apply in_map_iff in H. destruct H as (d&H&Hd).
    apply append_inj_l in H. simpl in H. injection H; intros ->. contradiction.
Qed.

Lemma new_prefix_panic_size o pf :
  new_prefix o pf = Panic -> (27 <= length pf)%nat.
Proof.
  intro H. pose proof (new_prefix_spec o pf) as S. rewrite H in S.
  rewrite <- (candidates_length o). rewrite <- (map_length fst pf).
  apply NoDup_incl_length; [apply candidates_NoDup|exact S].
Qed.

(** ** The loop of processPrefixes *)

(** one loop iteration seen from outside *)
Lemma process_loop_cons a rest nm pf o t :
  process_loop (a :: rest) nm pf o t =
  if String.eqb (quri a) "xmlns" then
    do tp <- (match sget (qvalue a) nm with
              | Some prev => Ok prev
              | None => new_prefix (nlocal (qname a)) pf end);
    process_loop rest (sset (qvalue a) tp nm) (sset (nlocal (qname a)) (qvalue a) pf)
                 (sset (nlocal (qname a)) (qvalue a) o) (sset (nlocal (qname a)) tp t)
  else process_loop rest nm pf o t.
Proof.
  cbn [process_loop]. destruct (String.eqb (quri a) "xmlns"); [|reflexivity].
  cbn [negb]. unfold target_prefix.
  destruct (sget (qvalue a) nm); [reflexivity|].
  destruct (new_prefix (nlocal (qname a)) pf); reflexivity.
Qed.

Definition binds (P : string -> string -> Prop) (m : list (string * string)) : Prop :=
  forall p, match sget p m with Some v => P p v | None => forall v, ~ P p v end.

(** the last declaration takes precedence *)
Lemma declares_app l1 a p v :
  declares (l1 ++ [a]) p v <-> declares [a] p v \/ (undeclared [a] p /\ declares l1 p v).
Proof.
  unfold declares, undeclared. split.
  - intros (b&(x&y&E&Hb&Hn)&Hv).
    destruct y as [|c y _] using rev_ind.
    + apply app_inj_tail in E. destruct E as [-> ->]. left. exists b. split; auto.
      exists [], []. repeat split; auto; apply Hb.
    + rewrite app_comm_cons, app_assoc in E. apply app_inj_tail in E. destruct E as [-> ->].
      right. split.
      * intros z [<-|[]]. apply Hn. apply in_app_iff; simpl; auto.
      * exists b. split; auto. exists x, y. repeat split; try apply Hb.
        intros z Hz. apply Hn. apply in_app_iff; auto.
  - intros [(b&(x&y&E&Hb&Hn)&Hv)|[Hu (b&(x&y&->&Hb&Hn)&Hv)]].
    + exists b. split; auto. exists (l1 ++ x)%list, y. rewrite <- app_assoc, <- E. repeat split; auto; apply Hb.
    + exists b. split; auto. exists x, (y ++ [a])%list.
      rewrite <- app_assoc. repeat split; try apply Hb.
      intros z Hz. apply in_app_iff in Hz. destruct Hz; [auto|]. apply Hu; auto.
Qed.

Lemma declares_one a p v :
  declares [a] p v <-> quri a = "xmlns" /\ nlocal (qname a) = p /\ qvalue a = v.
Proof.
  unfold declares. split.
  - intros (b&(x&y&E&[Hb Hb']&Hn)&Hv). destruct x as [|z x]; simpl in E.
    + injection E; intros; subst; auto.
    + destruct x; discriminate.
  - intros (H1&H2&H3). exists a. split; auto. exists [], []. repeat split; auto.
Qed.
Lemma undeclared_one a p :
  undeclared [a] p <-> ~ (quri a = "xmlns" /\ nlocal (qname a) = p).
Proof.
  unfold undeclared. simpl. split; [auto|]. intros H b [<-|[]]; auto.
Qed.
Lemma declares_nil p v : ~ declares [] p v.
Proof. intros (a&(x&y&E&_)&_). destruct x; discriminate. Qed.
Lemma undeclared_declares attrs p : undeclared attrs p -> forall v, ~ declares attrs p v.
Proof.
  intros H v (a&(x&y&->&Ha&_)&_). apply (H a); auto. apply in_app_iff; simpl; auto.
Qed.
Lemma declares_dec attrs p : undeclared attrs p \/ exists v, declares attrs p v.
Proof.
  induction attrs as [|a l IH] using rev_ind.
  - left. intros a [].
  - destruct (string_dec (quri a) "xmlns") as [E1|N1].
    + destruct (string_dec (nlocal (qname a)) p) as [E2|N2].
      * right. exists (qvalue a). apply declares_app. left. now apply declares_one.
      * destruct IH as [IH|(v&IH)].
        -- left. intros b Hb. apply in_app_iff in Hb. destruct Hb as [Hb|[<-|[]]]; auto. tauto.
        -- right. exists v. apply declares_app. right. split; auto. apply undeclared_one. tauto.
    + destruct IH as [IH|(v&IH)].
      * left. intros b Hb. apply in_app_iff in Hb. destruct Hb as [Hb|[<-|[]]]; auto. tauto.
      * right. exists v. apply declares_app. right. split; auto. apply undeclared_one. tauto.
Qed.
Lemma declares_fun attrs p v w : declares attrs p v -> declares attrs p w -> v = w.
Proof.
  revert v w. induction attrs as [|a l IH] using rev_ind; intros v w.
  - intro H. now apply declares_nil in H.
  - rewrite !declares_app, !declares_one, undeclared_one. intros [H|[H H']] [G|[G G']].
    + destruct H as (_&_&<-), G as (_&_&<-). auto.
    + tauto.
    + tauto.
    + eauto.
Qed.

(** Invariant of the loop: [done] attributes have been processed. *)
Definition loop_inv (done : list qattr) (nm pf og tg : list (string * string)) : Prop :=
  (forall p, match sget p og with
             | Some v => declares done p v /\ sget p tg = sget v nm /\ sget v nm <> None
             | None => undeclared done p end) /\
  (forall s t, In (s, t) standard -> sget s nm = Some t) /\
  NoDup (map fst og) /\ NoDup (map fst tg) /\ NoDup (map fst nm).

Lemma loop_inv0 : loop_inv [] name_map0 prefixes0 [] [].
Proof.
  split; [|split; [|split; [|split]]].
  - intro p. simpl. intros a [].
  - intros s t H. simpl in H. repeat (destruct H as [H|H]; [injection H; intros <- <-; reflexivity|]). destruct H.
  - constructor.
  - constructor.
  - unfold name_map0. simpl. repeat constructor; simpl; intuition discriminate.
Qed.

Lemma loop_inv_skip done a nm pf og tg :
  quri a <> "xmlns" -> loop_inv done nm pf og tg -> loop_inv (done ++ [a]) nm pf og tg.
Proof.
  intros N (I1&I2). split; [|exact I2]. intro p. specialize (I1 p).
  destruct (sget p og) as [v|].
  - destruct I1 as [D I1]. split; [|exact I1]. apply declares_app. right. split; auto.
    apply undeclared_one. tauto.
  - intros b Hb. apply in_app_iff in Hb. destruct Hb as [Hb|[<-|[]]]; [apply I1; auto|tauto].
Qed.

Lemma loop_inv_step done a nm pf og tg tp :
  quri a = "xmlns" ->
  (forall prev, sget (qvalue a) nm = Some prev -> tp = prev) ->
  loop_inv done nm pf og tg ->
  loop_inv (done ++ [a]) (sset (qvalue a) tp nm) (sset (nlocal (qname a)) (qvalue a) pf)
           (sset (nlocal (qname a)) (qvalue a) og) (sset (nlocal (qname a)) tp tg).
Proof.
  intros U Tp (I1&I2&ND1&ND2&ND3).
  assert (NM : forall v, sget v nm <> None -> sget v (sset (qvalue a) tp nm) = sget v nm).
  { intros v Hv. rewrite (mget_mset _ seqP).
    destruct (String.eqb_spec (qvalue a) v) as [<-|]; auto.
    destruct (sget (qvalue a) nm) as [prev|] eqn:E; [|congruence]. f_equal. auto. }
  split; [|split; [|split; [|split]]].
  - intro p. rewrite !(mget_mset _ seqP).
    destruct (String.eqb_spec (nlocal (qname a)) p) as [E|N].
    + split; [|split].
      * apply declares_app. left. apply declares_one. auto.
      * rewrite (mget_mset_eq _ seqP). reflexivity.
      * rewrite (mget_mset_eq _ seqP). discriminate.
    + specialize (I1 p). destruct (sget p og) as [v|].
      * destruct I1 as (D&I1&I1'). split; [|split].
        -- apply declares_app. right. split; auto. apply undeclared_one. tauto.
        -- rewrite NM; auto.
        -- rewrite NM; auto.
      * intros b Hb. apply in_app_iff in Hb. destruct Hb as [Hb|[<-|[]]]; [apply I1; auto|tauto].
  - intros s t H. rewrite NM; [auto|]. rewrite (I2 _ _ H). discriminate.
  - apply mset_NoDup; auto using seqP.
  - apply mset_NoDup; auto using seqP.
  - apply mset_NoDup; auto using seqP.
Qed.

Lemma process_loop_inv rest : forall done nm pf og tg np,
  loop_inv done nm pf og tg -> process_loop rest nm pf og tg = Ok np ->
  exists nm' pf', loop_inv (done ++ rest) nm' pf' (originPrefixes np) (targetPrefixes np).
Proof.
  induction rest as [|a rest IH]; intros done nm pf og tg np I H.
  - simpl in H. injection H; intros <-. rewrite app_nil_r. simpl. eauto.
  - rewrite process_loop_cons in H.
    replace (done ++ a :: rest)%list with ((done ++ [a]) ++ rest)%list by now rewrite <- app_assoc.
    destruct (String.eqb_spec (quri a) "xmlns") as [U|U].
    + destruct (sget (qvalue a) nm) as [prev|] eqn:E.
      * cbn [bind] in H. eapply IH; [|exact H]. apply loop_inv_step; auto. congruence.
      * destruct (new_prefix (nlocal (qname a)) pf) as [tp| |]; try discriminate.
        cbn [bind] in H. eapply IH; [|exact H]. apply loop_inv_step; auto. congruence.
    + eapply IH; [|exact H]. now apply loop_inv_skip.
Qed.

(** What a successfully built provider knows. *)
Lemma provider_facts attrs np :
  new_name_provider attrs = Ok np ->
  exists nm,
    (forall p v, sget p (originPrefixes np) = Some v <-> declares attrs p v) /\
    (forall p, sget p (originPrefixes np) = None <-> undeclared attrs p) /\
    (forall p v, declares attrs p v -> exists t, sget p (targetPrefixes np) = Some t /\ sget v nm = Some t) /\
    (forall s t, In (s, t) standard -> sget s nm = Some t) /\
    NoDup (map fst (originPrefixes np)).
Proof.
  intro H. apply process_loop_inv with (done := []) in H; [|apply loop_inv0].
  destruct H as (nm&pf&I1&I2&ND1&ND2&ND3). simpl in I1. exists nm.
  assert (A : forall p v, sget p (originPrefixes np) = Some v <-> declares attrs p v).
  { intros p v. specialize (I1 p). destruct (sget p (originPrefixes np)) as [w|] eqn:E.
    - destruct I1 as [D _]. split.
      + intro Q; injection Q; intros <-; auto.
      + intro D'. f_equal. eapply declares_fun; eauto.
    - split; [discriminate|]. intro D. exfalso; eapply undeclared_declares; eauto. }
  split; [exact A|]. split; [|split; [|split]]; auto.
  - intro p. specialize (I1 p). destruct (sget p (originPrefixes np)) as [w|] eqn:E.
    + split; [discriminate|]. intro U. destruct I1 as [D _]. exfalso; eapply undeclared_declares; eauto.
    + tauto.
  - intros p v D. specialize (I1 p). rewrite (proj2 (A p v) D) in I1.
    destruct I1 as (_&E&N). destruct (sget v nm) as [t|] eqn:Q; [|congruence]. exists t. auto.
Qed.

Lemma provide_concept_name_cons np p l :
  free_of ":" p ->
  provide_concept_name np (p ++ ":" ++ l)
  = match sget p (originPrefixes np), sget p (targetPrefixes np) with
    | Some _, Some t => Ok (t ++ ":" ++ l)
    | _, _ => Panic end.
Proof.
  intro F. unfold provide_concept_name.
  assert (E : cut ":" (p ++ ":" ++ l) = Some (p, l)) by (apply cut_Some_iff; auto).
  rewrite E. reflexivity.
Qed.

Lemma provider_same_ns attrs np p1 p2 v l :
  new_name_provider attrs = Ok np -> free_of ":" p1 -> free_of ":" p2 ->
  declares attrs p1 v -> declares attrs p2 v ->
  exists t, provide_concept_name np (p1 ++ ":" ++ l) = Ok (t ++ ":" ++ l) /\
            provide_concept_name np (p2 ++ ":" ++ l) = Ok (t ++ ":" ++ l).
Proof.
  intros H F1 F2 D1 D2. destruct (provider_facts _ _ H) as (nm&A&B&C&S&ND).
  destruct (C _ _ D1) as (t&T1&N1), (C _ _ D2) as (t'&T2&N2).
  assert (t' = t) by congruence. subst. exists t.
  rewrite !provide_concept_name_cons by auto.
  rewrite (proj2 (A _ _) D1), (proj2 (A _ _) D2), T1, T2. auto.
Qed.

Lemma provider_standard attrs np p v l s :
  new_name_provider attrs = Ok np -> free_of ":" p ->
  In (v, s) standard -> declares attrs p v ->
  provide_concept_name np (p ++ ":" ++ l) = Ok (s ++ ":" ++ l).
Proof.
  intros H F I D. destruct (provider_facts _ _ H) as (nm&A&B&C&S&ND).
  destruct (C _ _ D) as (t&T1&N1). rewrite (S _ _ I) in N1. injection N1; intros <-.
  rewrite provide_concept_name_cons by auto. now rewrite (proj2 (A _ _) D), T1.
Qed.

Lemma provide_name_loop_spec order tg v :
  match provide_name_loop order tg v with
  | (t, true) => exists p, In (p, v) order /\ t = match sget p tg with Some t => t | None => "" end
  | (t, false) => t = "" /\ forall p, ~ In (p, v) order
  end.
Proof.
  induction order as [|[o s] rest IH]; simpl.
  - split; auto.
  - destruct (String.eqb_spec s v) as [->|N].
    + exists o; auto.
    + destruct (provide_name_loop rest tg v) as [t [|]].
      * destruct IH as (p&I&E). eauto.
      * destruct IH as [E I]. split; auto. intros p [Q|Q]; [injection Q; congruence|eapply I; eauto].
Qed.

Lemma provide_name_cases attrs np order v l :
  new_name_provider attrs = Ok np -> Permutation (originPrefixes np) order ->
  (forall p, declares attrs p v ->
     exists t, provide_concept_name np (p ++ ":" ++ l) = Ok (t ++ ":" ++ l) \/ ~ free_of ":" p) /\
  ((exists p t, declares attrs p v /\ sget p (targetPrefixes np) = Some t /\
      provide_name order np v l = Ok (if nonempty t then t ++ ":" ++ l else l)) \/
   ((forall p, ~ declares attrs p v) /\ provide_name order np v l = Ok l)).
Proof.
  intros H HP. destruct (provider_facts _ _ H) as (nm&A&B&C&S&ND). split.
  - intros p D. destruct (C _ _ D) as (t&T&_). exists t.
    destruct (has_char ":" p) eqn:E.
    + right. intro F. apply has_char_false_iff in F. congruence.
    + left. apply has_char_false_iff in E. rewrite provide_concept_name_cons by auto.
      now rewrite (proj2 (A _ _) D), T.
  - unfold provide_name. pose proof (provide_name_loop_spec order (targetPrefixes np) v) as L.
    destruct (provide_name_loop order (targetPrefixes np) v) as [t [|]].
    + left. destruct L as (p&I&E).
      assert (D : declares attrs p v).
      { apply A. apply (In_mget _ seqP); auto. eapply Permutation_in; [symmetry; exact HP|exact I]. }
      destruct (C _ _ D) as (t'&T&_). rewrite T in E; subst t'.
      exists p, t. repeat split; auto. destruct (nonempty t); reflexivity.
    + right. destruct L as [-> L]. split; [|reflexivity]. intros p D. apply (L p).
      apply A in D. eapply Permutation_in; [exact HP|]. now apply (mget_In _ seqP).
Qed.

Lemma provide_name_target attrs np order p v l t :
  new_name_provider attrs = Ok np -> Permutation (originPrefixes np) order ->
  declares attrs p v -> sget p (targetPrefixes np) = Some t ->
  provide_name order np v l = Ok (if nonempty t then t ++ ":" ++ l else l).
Proof.
  intros H HP D T.
  destruct (proj2 (provide_name_cases attrs np order v l H HP)) as [(p'&t'&D'&T'&E)|[N _]].
  - destruct (provider_facts _ _ H) as (nm&A&B&C&S&ND).
    destruct (C _ _ D) as (u&U&Nu), (C _ _ D') as (u'&U'&Nu').
    assert (t' = t) by congruence. now subst.
  - destruct (N p D).
Qed.

Lemma provide_name_order_free attrs np o1 o2 v l :
  new_name_provider attrs = Ok np ->
  Permutation (originPrefixes np) o1 -> Permutation (originPrefixes np) o2 ->
  provide_name o1 np v l = provide_name o2 np v l.
Proof.
  intros H P1 P2.
  destruct (proj2 (provide_name_cases attrs np o1 v l H P1)) as [(p&t&D&T&E)|[N E]].
  - rewrite E. symmetry. eapply provide_name_target; eauto.
  - destruct (proj2 (provide_name_cases attrs np o2 v l H P2)) as [(p&t&D&T&E')|[N' E']].
    + destruct (N p D).
    + congruence.
Qed.

(** ** Totality for few declarations *)
Lemma mset_length {K V} keq (k : K) (v : V) m :
  (length (mset keq k v m) <= S (length m))%nat.
Proof. induction m as [|[k' v'] t IH]; simpl; [lia|]. destruct (keq k' k); simpl; lia. Qed.

Lemma process_loop_total rest : forall nm pf og tg,
  (length pf + length rest <= 27)%nat -> exists np, process_loop rest nm pf og tg = Ok np.
Proof.
  induction rest as [|a rest IH]; intros nm pf og tg L.
  - simpl. eauto.
  - rewrite process_loop_cons. simpl in L. destruct (String.eqb (quri a) "xmlns").
    + assert (G : forall tp, exists np, process_loop rest (sset (qvalue a) tp nm)
         (sset (nlocal (qname a)) (qvalue a) pf) (sset (nlocal (qname a)) (qvalue a) og)
         (sset (nlocal (qname a)) tp tg) = Ok np).
      { intro tp. apply IH. pose proof (mset_length String.eqb (nlocal (qname a)) (qvalue a) pf). lia. }
      destruct (sget (qvalue a) nm) as [prev|]; [apply G|].
      pose proof (new_prefix_spec (nlocal (qname a)) pf) as Sp.
      destruct (new_prefix (nlocal (qname a)) pf) as [tp|m|] eqn:E; [apply G|destruct Sp|].
      apply new_prefix_panic_size in E. lia.
    + apply IH. lia.
Qed.

(** ** Injectivity when declared prefixes never clash with standard ones *)
(** every canonical prefix is standard for its namespace or a declared prefix of it *)
Definition inj_inv (done : list qattr) (nm pf : list (string * string)) : Prop :=
  (forall v t, sget v nm = Some t ->
     In (v, t) standard \/
     ((forall s, ~ In (s, t) standard) /\
      exists a, In a done /\ quri a = "xmlns" /\ nlocal (qname a) = t /\ qvalue a = v)) /\
  (forall p, In p (map fst pf) ->
     (exists s, In (s, p) standard) \/ exists a, In a done /\ quri a = "xmlns" /\ nlocal (qname a) = p) /\
  (forall s t, In (s, t) standard -> sget s nm = Some t).

Lemma standard_pf0 p : In p (map fst prefixes0) -> exists s, In (s, p) standard.
Proof.
  unfold prefixes0, standard. cbn [map fst].
  intros [<-|[<-|[<-|[<-|[<-|[<-|[]]]]]]]; eexists; simpl; eauto 10.
Qed.
Lemma name_map0_standard v t : sget v name_map0 = Some t -> In (v, t) standard.
Proof. intro H. apply (mget_In _ seqP) in H. exact H. Qed.

Lemma inj_inv0 : inj_inv [] name_map0 prefixes0.
Proof.
  split; [|split].
  - intros v t H. left. now apply name_map0_standard.
  - intros p H. left. now apply standard_pf0.
  - apply loop_inv0.
Qed.

Lemma standard_std_dec p : (exists s, In (s, p) standard) \/ (forall s, ~ In (s, p) standard).
Proof.
  destruct (in_dec string_dec p (map snd standard)) as [H|H].
  - left. apply in_map_iff in H. destruct H as ([s q]&E&I). simpl in E; subst. eauto.
  - right. intros s I. apply H. apply in_map_iff. exists (s, p); auto.
Qed.

Lemma process_loop_inj rest : forall done nm pf og tg np,
  clean (done ++ rest) -> distinct_prefixes (done ++ rest) ->
  inj_inv done nm pf -> loop_inv done nm pf og tg ->
  process_loop rest nm pf og tg = Ok np ->
  exists nm' pf', inj_inv (done ++ rest) nm' pf' /\
    loop_inv (done ++ rest) nm' pf' (originPrefixes np) (targetPrefixes np).
Proof.
  induction rest as [|a rest IH]; intros done nm pf og tg np Cl Di (J1&J2&J3) I H.
  - simpl in H. injection H; intros <-. rewrite app_nil_r. exists nm, pf. simpl. repeat split; auto; apply I.
  - rewrite process_loop_cons in H.
    replace (done ++ a :: rest)%list with ((done ++ [a]) ++ rest)%list in * by now rewrite <- app_assoc.
    destruct (String.eqb_spec (quri a) "xmlns") as [U|U].
    + assert (Step : forall tp,
        (forall prev, sget (qvalue a) nm = Some prev -> tp = prev) ->
        (sget (qvalue a) nm = None -> tp = nlocal (qname a) /\ forall s, ~ In (s, nlocal (qname a)) standard) ->
        inj_inv (done ++ [a]) (sset (qvalue a) tp nm) (sset (nlocal (qname a)) (qvalue a) pf)).
      { intros tp T1 T2. split; [|split].
        - intros v t. rewrite (mget_mset _ seqP).
          destruct (String.eqb_spec (qvalue a) v) as [E|N].
          + intro Q; injection Q; intros <-. subst v.
            destruct (sget (qvalue a) nm) as [prev|] eqn:E.
            * rewrite (T1 _ eq_refl). destruct (J1 _ _ E) as [S|(S&b&Hb&X)]; auto.
              right. split; auto. exists b. split; auto. apply in_app_iff; auto.
            * destruct (T2 eq_refl) as [-> S]. right. split; auto.
              exists a. repeat split; auto. apply in_app_iff; simpl; auto.
          + intro Q. destruct (J1 _ _ Q) as [S|(S&b&Hb&X)]; auto.
            right. split; auto. exists b. split; auto. apply in_app_iff; auto.
        - intros p Hp. apply (mset_keys_In _ seqP) in Hp. destruct Hp as [->|Hp].
          + right. exists a. repeat split; auto. apply in_app_iff; simpl; auto.
          + destruct (J2 _ Hp) as [S|(b&Hb&X)]; auto.
            right. exists b. split; auto. apply in_app_iff; auto.
        - intros s t St. rewrite (mget_mset _ seqP).
          destruct (String.eqb_spec (qvalue a) s) as [E|N]; auto.
          subst s. rewrite (T1 _ (J3 _ _ St)). reflexivity. }
      destruct (sget (qvalue a) nm) as [prev|] eqn:E.
      * cbn [bind] in H. eapply IH; [exact Cl|exact Di| | |exact H].
        -- apply Step; congruence.
        -- apply loop_inv_step; auto. congruence.
      * pose proof (new_prefix_spec (nlocal (qname a)) pf) as Sp.
        destruct (new_prefix (nlocal (qname a)) pf) as [tp| |]; try discriminate.
        cbn [bind] in H. eapply IH; [exact Cl|exact Di| | |exact H].
        2: { apply loop_inv_step; auto. congruence. }
        apply Step; [congruence|]. intros _.
        assert (NS : forall s, ~ In (s, nlocal (qname a)) standard).
        { intros s St. assert (V : qvalue a = s).
          { eapply Cl; eauto. apply in_app_iff. left. apply in_app_iff; simpl; auto. }
          rewrite V in E. rewrite (J3 _ _ St) in E. discriminate. }
        split; auto.
        assert (NK : ~ In (nlocal (qname a)) (map fst pf)).
        { intro K. destruct (J2 _ K) as [(s&St)|(b&Hb&Ub&Lb)]; [eapply NS; eauto|].
          unfold distinct_prefixes in Di. rewrite <- app_assoc in Di.
          rewrite filter_app, map_app in Di.
          apply NoDup_remove_2 with (l := map (fun a => nlocal (qname a)) (filter (fun a => String.eqb (quri a) "xmlns") done))
            (l' := map (fun a => nlocal (qname a)) (filter (fun a => String.eqb (quri a) "xmlns") rest))
            (a := nlocal (qname a)).
          - cbn [app filter] in Di. rewrite U in Di. simpl in Di. exact Di.
          - apply in_app_iff. left. apply in_map_iff. exists b. split; auto.
            apply filter_In. split; auto. now apply String.eqb_eq. }
        destruct Sp as (l1&l2&E1&Hp&Hn).
        destruct l1 as [|x l1]; cbn [app] in E1; unfold candidates in E1; injection E1; intros _ <-; auto.
        destruct (Hn (nlocal (qname a))); simpl; auto.
    + eapply IH; [exact Cl|exact Di| | |exact H].
      * split; [|split]; auto.
        -- intros v t Q. destruct (J1 _ _ Q) as [S|(S&b&Hb&X)]; auto.
           right. split; auto. exists b. split; auto. apply in_app_iff; auto.
        -- intros p Hp. destruct (J2 _ Hp) as [S|(b&Hb&X)]; auto.
           right. exists b. split; auto. apply in_app_iff; auto.
      * now apply loop_inv_skip.
Qed.

Lemma standard_inj_l s s' t : In (s, t) standard -> In (s', t) standard -> s = s'.
Proof.
  unfold standard. simpl.
  intros H H'.
  repeat (destruct H as [H|H]; [injection H; intros <- <-;
    repeat (destruct H' as [H'|H']; [injection H'; congruence || (intros; congruence)|]);
    destruct H'|]). destruct H.
Qed.

Lemma provider_injective attrs np p1 p2 v1 v2 t1 t2 :
  clean attrs -> distinct_prefixes attrs ->
  new_name_provider attrs = Ok np ->
  declares attrs p1 v1 -> declares attrs p2 v2 -> v1 <> v2 ->
  sget p1 (targetPrefixes np) = Some t1 -> sget p2 (targetPrefixes np) = Some t2 -> t1 <> t2.
Proof.
  intros Cl Di H D1 D2 N T1 T2 E. subst t2.
  apply process_loop_inj with (done := []) in H; auto using inj_inv0, loop_inv0.
  simpl in H. destruct H as (nm&pf&(J1&J2&J3)&(I1&_)).
  assert (Q : forall p v t, declares attrs p v -> sget p (targetPrefixes np) = Some t -> sget v nm = Some t).
  { intros p v t D T. specialize (I1 p). destruct (sget p (originPrefixes np)) as [w|].
    - destruct I1 as (D'&X&_). rewrite (declares_fun _ _ _ _ D' D) in X. congruence.
    - exfalso. eapply undeclared_declares; eauto. }
  pose proof (J1 _ _ (Q _ _ _ D1 T1)) as [S1|(S1&a1&A1&U1&L1&V1)];
  pose proof (J1 _ _ (Q _ _ _ D2 T2)) as [S2|(S2&a2&A2&U2&L2&V2)].
  - apply N. eapply standard_inj_l; eauto.
  - eapply S2; eauto.
  - eapply S1; eauto.
  - apply N. rewrite <- V1, <- V2. f_equal.
    unfold distinct_prefixes in Di.
    assert (G : forall l, NoDup (map (fun a => nlocal (qname a)) l) -> In a1 l -> In a2 l -> a1 = a2).
    { induction l as [|x l IH]; simpl; [tauto|]. intros ND I J. inversion ND as [|? ? Hx ND']; subst.
      destruct I as [->|I], J as [->|J]; auto.
      - exfalso. apply Hx. apply in_map_iff. exists a2. split; [congruence|auto].
      - exfalso. apply Hx. apply in_map_iff. exists a1. split; [congruence|auto]. }
    eapply G; [exact Di| |]; apply filter_In; split; auto; now apply String.eqb_eq.
Qed.

Lemma provide_name_full attrs np order v l :
    new_name_provider attrs = Ok np -> Permutation (originPrefixes np) order ->
    (forall p t, free_of ":" p -> declares attrs p v ->
       provide_concept_name np (p ++ ":" ++ l) = Ok (t ++ ":" ++ l) ->
       provide_name order np v l = Ok (if String.eqb t "" then l else t ++ ":" ++ l)) /\
    ((forall p, ~ declares attrs p v) -> provide_name order np v l = Ok l).
Proof.
  intros H HP. split.
  - intros p t F D E. rewrite provide_concept_name_cons in E by auto.
    destruct (sget p (originPrefixes np)); [|discriminate].
    destruct (sget p (targetPrefixes np)) as [t'|] eqn:T; [|discriminate].
    assert (Q : t' ++ ":" ++ l = t ++ ":" ++ l) by congruence.
    apply append_inj_r in Q. subst t'.
    rewrite (provide_name_target attrs np order p v l t H HP D T).
    destruct t; reflexivity.
  - intro N. destruct (proj2 (provide_name_cases attrs np order v l H HP)) as [(p&t&D&_)|[_ E]]; auto.
    destruct (N p D).
Qed.

Lemma provider_total attrs :
  (length attrs <= 21)%nat -> exists np, new_name_provider attrs = Ok np.
Proof. intro L. apply process_loop_total. simpl. lia. Qed.

Lemma provider_never_err attrs m : new_name_provider attrs <> Err m.
Proof.
  unfold new_name_provider.
  assert (G : forall nm pf og tg, process_loop attrs nm pf og tg <> Err m); [|apply G].
  induction attrs as [|a rest IH]; intros nm pf og tg; [discriminate|].
  rewrite process_loop_cons. destruct (String.eqb (quri a) "xmlns"); [|apply IH].
  destruct (sget (qvalue a) nm); [apply IH|].
  pose proof (new_prefix_spec (nlocal (qname a)) pf) as Sp.
  destruct (new_prefix (nlocal (qname a)) pf); [apply IH|destruct Sp|discriminate].
Qed.

Lemma provide_xml_name_spec attrs np p l :
  new_name_provider attrs = Ok np -> free_of ":" p ->
  (forall v, declares attrs p v -> provide_xml_name np (p ++ ":" ++ l) = Ok (XName v l)) /\
  (undeclared attrs p -> exists m, provide_xml_name np (p ++ ":" ++ l) = Err m).
Proof.
  intros H F. destruct (provider_facts _ _ H) as (nm&A&B&_).
  unfold provide_xml_name.
  assert (E : cut ":" (p ++ ":" ++ l) = Some (p, l)) by (apply cut_Some_iff; auto).
  rewrite E. split.
  - intros v D. now rewrite (proj2 (A _ _) D).
  - intro U. rewrite (proj2 (B _) U). eauto.
Qed.

Lemma provide_concept_name_spec attrs np p l :
  new_name_provider attrs = Ok np -> free_of ":" p ->
  (forall v, declares attrs p v -> exists t, provide_concept_name np (p ++ ":" ++ l) = Ok (t ++ ":" ++ l)) /\
  (undeclared attrs p -> provide_concept_name np (p ++ ":" ++ l) = Panic).
Proof.
  intros H F. destruct (provider_facts _ _ H) as (nm&A&B&C&_).
  rewrite provide_concept_name_cons by auto. split.
  - intros v D. rewrite (proj2 (A _ _) D). destruct (C _ _ D) as (t&->&_). eauto.
  - intro U. now rewrite (proj2 (B _) U).
Qed.

Lemma provider_injective_names attrs np p1 p2 v1 v2 l1 l2 n :
  clean attrs -> distinct_prefixes attrs -> new_name_provider attrs = Ok np ->
  free_of ":" p1 -> free_of ":" p2 -> free_of ":" l1 -> free_of ":" l2 ->
  declares attrs p1 v1 -> declares attrs p2 v2 ->
  provide_concept_name np (p1 ++ ":" ++ l1) = Ok n ->
  provide_concept_name np (p2 ++ ":" ++ l2) = Ok n ->
  v1 = v2 /\ l1 = l2.
Proof.
  intros Cl Di H F1 F2 G1 G2 D1 D2 E1 E2.
  rewrite provide_concept_name_cons in E1, E2 by auto.
  destruct (provider_facts _ _ H) as (nm&A&B&C&_).
  rewrite (proj2 (A _ _) D1) in E1. rewrite (proj2 (A _ _) D2) in E2.
  destruct (C _ _ D1) as (t1&T1&_), (C _ _ D2) as (t2&T2&_). rewrite T1 in E1. rewrite T2 in E2.
  assert (Q : t1 ++ ":" ++ l1 = t2 ++ ":" ++ l2) by congruence.
  assert (L : l1 = l2 /\ t1 = t2).
  { clear -Q G1 G2. revert t2 Q; induction t1 as [|c t1 IH]; intros [|d t2] Q; simpl in Q.
    - injection Q; auto.
    - injection Q; intros Q' <-. subst l1. apply free_of_app in G1. destruct G1 as [_ [G1 _]]. congruence.
    - injection Q; intros Q' ->. subst l2. apply free_of_app in G2. destruct G2 as [_ [G2 _]]. congruence.
    - injection Q; intros Q' ->. destruct (IH _ Q') as [-> ->]; auto. }
  destruct L as [-> ->]. split; auto.
  destruct (string_dec v1 v2) as [|N]; auto.
  destruct (provider_injective attrs np p1 p2 v1 v2 t2 t2 Cl Di H D1 D2 N T1 T2 eq_refl).
Qed.

Lemma provider_partial :
  (forall attrs, (length attrs <= 21)%nat -> exists np, new_name_provider attrs = Ok np) /\
  (forall attrs m, new_name_provider attrs <> Err m) /\
  (forall o known p, new_prefix o known = Ok p ->
     first_such (fun c => ~ In c (map fst known)) (candidates o) p) /\
  (forall o known, new_prefix o known = Panic <->
     forall c, In c (candidates o) -> In c (map fst known)).
Proof.
  split; [exact provider_total|split; [exact provider_never_err|split]].
  - intros o known p H. pose proof (new_prefix_spec o known) as S. now rewrite H in S.
  - intros o known. pose proof (new_prefix_spec o known) as S.
    destruct (new_prefix o known) as [p|m|]; [|destruct S|tauto].
    split; [discriminate|]. intro H. destruct S as (l1&l2&E&Hp&_). destruct Hp. apply H.
    rewrite E. apply in_app_iff; simpl; auto.
Qed.
