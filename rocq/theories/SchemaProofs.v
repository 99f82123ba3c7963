(** * SchemaProofs: lemmas for SchemaProps *)
From Verif Require Import GoBase GoSpec GoFacts AttrModel AttrSpec AttrProofs SchemaModel SchemaSpec.
Local Open Scope string_scope.

(** ** Attributes *)
Lemma find_attr_the attrs n a : find_attr attrs n = Some a <-> the_attr attrs n a.
Proof. apply find_attr_Some. Qed.
Lemma the_attr_fun attrs n a b : the_attr attrs n a -> the_attr attrs n b -> a = b.
Proof. apply first_such_unique. Qed.
Lemma find_attr_no attrs n : find_attr attrs n = None <-> no_attr attrs n.
Proof. apply find_attr_None. Qed.
Lemma no_the_attr attrs n a : no_attr attrs n -> ~ the_attr attrs n a.
Proof.
  intros H (l1&l2&->&Ha&_). apply (H a); auto. apply in_app_iff; simpl; auto.
Qed.
Lemma attr_val_iff attrs n v :
  attr_val attrs n v <-> exists a, find_attr attrs n = Some a /\ avalue a = v.
Proof. unfold attr_val. split; intros (a&H&E); exists a; split; auto; now apply find_attr_the. Qed.
Lemma attr_val_fun attrs n v w : attr_val attrs n v -> attr_val attrs n w -> v = w.
Proof. intros (a&Ha&<-) (b&Hb&<-). f_equal. eapply the_attr_fun; eauto. Qed.

Lemma attr_nonempty_Some attrs n a :
  attr_nonempty attrs n = Some a <-> the_attr attrs n a /\ avalue a <> "".
Proof.
  unfold attr_nonempty. destruct (find_attr attrs n) as [b|] eqn:E.
  - apply find_attr_the in E. destruct (String.eqb_spec (avalue b) ""); split.
    + discriminate.
    + intros [H N]. rewrite (the_attr_fun _ _ _ _ H E) in N. contradiction.
    + intro H; injection H; intros <-; auto.
    + intros [H N]. now rewrite (the_attr_fun _ _ _ _ H E).
  - split; [discriminate|]. intros [H N]. apply find_attr_no in E. now apply no_the_attr in H.
Qed.
Lemma required_iff attrs n v :
  required attrs n v <-> exists a, attr_nonempty attrs n = Some a /\ avalue a = v.
Proof.
  unfold required, attr_val. split.
  - intros [(a&Ha&<-) N]. exists a. rewrite attr_nonempty_Some. auto.
  - intros (a&Ha&<-). apply attr_nonempty_Some in Ha as [Ha N]. split; eauto.
Qed.
Lemma required_None attrs n : attr_nonempty attrs n = None <-> forall v, ~ required attrs n v.
Proof.
  split.
  - intros E v H. apply required_iff in H as (a&Ha&_). congruence.
  - intro H. destruct (attr_nonempty attrs n) as [a|] eqn:E; auto.
    exfalso. apply (H (avalue a)). apply required_iff; eauto.
Qed.
Lemma required_fun attrs n v w : required attrs n v -> required attrs n w -> v = w.
Proof. intros [H _] [H' _]. eapply attr_val_fun; eauto. Qed.

Lemma attr_or_empty_iff attrs n v : attr_or_empty attrs n = v <-> optional attrs n v.
Proof.
  unfold attr_or_empty, optional. destruct (find_attr attrs n) as [a|] eqn:E.
  - assert (H : attr_val attrs n (avalue a)) by (apply attr_val_iff; eauto). split.
    + intros <-; auto.
    + intros [H'|[H' _]]; [eapply attr_val_fun; eauto|].
      apply find_attr_the in E. now apply no_the_attr in E.
  - apply find_attr_no in E. split.
    + intros <-; auto.
    + intros [(a&Ha&_)|[_ ->]]; auto. now apply no_the_attr in Ha.
Qed.

Definition attr_in (space : string) (attrs : list xattr) (n : string) : string :=
  match find_attr attrs n with
  | Some a => if String.eqb (nspace (aname a)) space then avalue a else ""
  | None => ""
  end.
Lemma attr_in_iff space attrs n v : attr_in space attrs n = v <-> optional_in space attrs n v.
Proof.
  unfold attr_in, optional_in. destruct (find_attr attrs n) as [a|] eqn:E.
  - apply find_attr_the in E. destruct (String.eqb_spec (nspace (aname a)) space) as [S|S]; split.
    + intros <-; left; eauto.
    + intros [(b&Hb&_&<-)|[H _]].
      * f_equal. eapply the_attr_fun; eauto.
      * exfalso. eapply H; eauto.
    + intros <-. right. split; auto. intros b Hb. now rewrite (the_attr_fun _ _ _ _ Hb E).
    + intros [(b&Hb&Sb&_)|[_ ->]]; auto. rewrite (the_attr_fun _ _ _ _ Hb E) in Sb. contradiction.
  - apply find_attr_no in E. split.
    + intros <-. right. split; auto. intros a Ha. now apply no_the_attr in Ha.
    + intros [(b&Hb&_)|[_ ->]]; auto. now apply no_the_attr in Hb.
Qed.
Lemma attr_xbrli_in attrs n : attr_xbrli attrs n = attr_in "http://www.xbrl.org/2003/instance" attrs n.
Proof. reflexivity. Qed.

Lemma parse_bool_true s : parse_bool s = Some true <-> In s true_lits.
Proof.
  unfold parse_bool. change ["1"; "t"; "T"; "true"; "TRUE"; "True"] with true_lits.
  change ["0"; "f"; "F"; "false"; "FALSE"; "False"] with false_lits.
  destruct (mem String.eqb s true_lits) eqn:E.
  - apply (mem_In _ seqP) in E. tauto.
  - apply (mem_false _ seqP) in E. destruct (mem String.eqb s false_lits); split; try discriminate; tauto.
Qed.
Lemma attr_bool_iff attrs n b : attr_bool attrs n = b <-> flag attrs n b.
Proof.
  unfold flag. assert (attr_bool attrs n = true <-> exists v, attr_val attrs n v /\ In v true_lits) as H.
  { unfold attr_bool. destruct (find_attr attrs n) as [a|] eqn:E.
    - assert (Ha : attr_val attrs n (avalue a)) by (apply attr_val_iff; eauto).
      split.
      + intro H. exists (avalue a). split; auto. apply parse_bool_true.
        destruct (parse_bool (avalue a)); congruence.
      + intros (v&Hv&Iv). rewrite (attr_val_fun _ _ _ _ Ha Hv).
        apply parse_bool_true in Iv. now rewrite Iv.
    - split; [discriminate|]. intros (v&Hv&_). apply attr_val_iff in Hv as (a&Ha&_). congruence. }
  rewrite <- H. destruct (attr_bool attrs n), b; split; try congruence; intuition.
Qed.

Lemma typed_domain_href_iff attrs file href :
  typed_domain_href attrs file = href <-> optional_ref file attrs "typedDomainRef" href.
Proof.
  assert (D : forall r, document_relative file r
                 (match cut "#" r with Some ("", _) => file ++ r | _ => r end)).
  { intro r. unfold document_relative. destruct (cut "#" r) as [[b t]|] eqn:E.
    - apply cut_Some_iff in E as [-> F]. destruct b as [|c b].
      + left. exists t. auto.
      + right. split; auto. intros rest H. simpl in H. injection H; intros. simpl in F.
        destruct F as [F _]. congruence.
    - right. split; auto. apply cut_None_iff in E. intros rest ->. simpl in E. destruct E; congruence. }
  assert (DF : forall r h h', document_relative file r h -> document_relative file r h' -> h = h').
  { intros r h h' [(x&->&->)|[N ->]] [(y&E&->)|[M ->]]; auto.
    - exfalso; eapply M; eauto.
    - exfalso; eapply N; eauto. }
  assert (typed_domain_href attrs file =
          let r := attr_in "http://xbrl.org/2005/xbrldt" attrs "typedDomainRef" in
          match cut "#" r with Some ("", _) => file ++ r | _ => r end) as ->.
  { unfold typed_domain_href, attr_in.
    change "http://xbrl.org/2005/xbrldt" with XBRLDT.
    destruct (find_attr attrs "typedDomainRef") as [a|]; auto.
    destruct (String.eqb (nspace (aname a)) XBRLDT); auto. }
  simpl. set (r := attr_in _ _ _). assert (Hr : optional_in "http://xbrl.org/2005/xbrldt" attrs "typedDomainRef" r)
    by now apply attr_in_iff. clearbody r.
  unfold optional_ref. split.
  - intros <-. exists r. auto.
  - intros (r'&Hr'&Hd). apply attr_in_iff in Hr, Hr'. rewrite Hr in Hr'. subst r'.
    eapply DF; eauto.
Qed.

(** ** Loops *)
Lemma collect_image {A B} (f : A -> option B) (R : A -> B -> Prop) l :
  (forall x y, f x = Some y <-> R x y) -> image_of R l (collect f l).
Proof.
  intro H. induction l as [|x t IH]; simpl; [constructor|].
  destruct (f x) as [y|] eqn:E.
  - constructor; auto. now apply H.
  - apply image_skip; auto. intros y Hy. apply H in Hy. congruence.
Qed.
Lemma image_of_fun {A B} (R : A -> B -> Prop) l l1 l2 :
  (forall x y z, R x y -> R x z -> y = z) -> image_of R l l1 -> image_of R l l2 -> l1 = l2.
Proof.
  intros F H; revert l2; induction H as [|x y l l' Rxy H IH|x l l' N H IH]; intros l2 H2.
  - inversion H2; auto.
  - inversion H2 as [|? y2 ? ? R2 T2|? ? ? N2 T2]; subst.
    + f_equal; eauto.
    + exfalso. eapply N2; eauto.
  - inversion H2 as [|? y2 ? ? R2 T2|? ? ? N2 T2]; subst; eauto.
    exfalso. eapply N; eauto.
Qed.
Lemma image_of_In {A B} (R : A -> B -> Prop) l l' y :
  image_of R l l' -> In y l' -> exists x, In x l /\ R x y.
Proof.
  induction 1; simpl; [tauto| |].
  - intros [<-|Hy]; eauto. destruct (IHimage_of Hy) as (z&?&?); eauto.
  - intro Hy. destruct (IHimage_of Hy) as (z&?&?); eauto.
Qed.
Lemma image_of_In' {A B} (R : A -> B -> Prop) l l' x y :
  (forall x y z, R x y -> R x z -> y = z) ->
  image_of R l l' -> In x l -> R x y -> In y l'.
Proof.
  intros F H; induction H; simpl; [tauto| |].
  - intros [->|Hx] Hr; [left; eauto|right; auto].
  - intros [->|Hx] Hr; [exfalso; eapply H; eauto|auto].
Qed.
Lemma collect_app {A B} (f : A -> option B) l l' :
  collect f (l ++ l')%list = (collect f l ++ collect f l')%list.
Proof. induction l as [|x t IH]; simpl; auto. rewrite IH. destruct (f x); auto. Qed.
Lemma collect_In {A B} (f : A -> option B) l y :
  In y (collect f l) <-> exists x, In x l /\ f x = Some y.
Proof.
  induction l as [|x t IH]; simpl.
  - split; [tauto|intros (?&[]&_)].
  - destruct (f x) eqn:E; simpl; rewrite IH; split.
    + intros [->|(z&?&?)]; eauto.
    + intros (z&[->|?]&?); [left; congruence|right; eauto].
    + intros (z&?&?); eauto.
    + intros (z&[->|?]&?); [congruence|eauto].
Qed.
Lemma collect_filter_map {A B} (f : A -> option B) l : collect f l = filter_map f l.
Proof. reflexivity. Qed.
Lemma map_filter_image {A B} (p : A -> bool) (g : A -> B) (R : A -> B -> Prop) l :
  (forall x y, R x y <-> p x = true /\ y = g x) -> image_of R l (map g (filter p l)).
Proof.
  intro H. induction l as [|x t IH]; simpl; [constructor|].
  destruct (p x) eqn:E; simpl.
  - constructor; auto. apply H; auto.
  - apply image_skip; auto. intros y Hy. apply H in Hy as [Hy _]. congruence.
Qed.

(** ** Concepts *)
Lemma hydrate_concept_iff f file e c :
  hydrate_concept (sf_attrs f) (hydrate_target_namespace f) file e = Some c <->
  declares_concept f file e c.
Proof.
  unfold hydrate_concept. destruct (String.eqb_spec (nspace (ename e)) XSD) as [S|S]; simpl.
  2:{ split; [discriminate|]. intros [H]. contradiction. }
  assert (RN : forall n, attr_nonempty (eattrs e) n = None -> forall v, ~ required (eattrs e) n v)
    by (intros n H; now apply required_None).
  destruct (attr_nonempty (eattrs e) "id") as [ia|] eqn:Ei.
  2:{ split; [discriminate|]. intros []. exfalso; eapply RN; eauto. }
  destruct (attr_nonempty (eattrs e) "name") as [na|] eqn:En.
  2:{ split; [discriminate|]. intros []. exfalso; eapply (RN "name"); eauto. }
  destruct (attr_nonempty (eattrs e) "type") as [ta|] eqn:Et.
  2:{ split; [discriminate|]. intros [? ? ? ? (t&Ht&_)]. exfalso; eapply (RN "type"); eauto. }
  assert (Ri : required (eattrs e) "id" (avalue ia)) by (apply required_iff; eauto).
  assert (Rn : required (eattrs e) "name" (avalue na)) by (apply required_iff; eauto).
  assert (Rt : required (eattrs e) "type" (avalue ta)) by (apply required_iff; eauto).
  split.
  - intro H; injection H; intros <-. constructor; simpl; auto.
    + now apply attr_or_empty_iff.
    + exists (avalue ta). split; auto. apply xmlns_resolves.
    + unfold optional_qname. destruct (attr_nonempty (eattrs e) "substitutionGroup") as [sa|] eqn:Es.
      * left. exists (avalue sa). split; [apply required_iff; eauto|apply xmlns_resolves].
      * right. split; auto.
    + now apply attr_bool_iff.
    + now apply attr_bool_iff.
    + now apply attr_in_iff.
    + now apply attr_in_iff.
    + now apply typed_domain_href_iff.
  - intros [H1 H2 H3 H4 (t&H5&H5') H6 H7 H8 H9 H10 H11].
    f_equal. destruct c as [[cs cl] ci ct csg cn cp cb ca ctd]; simpl in *.
    pose proof (required_fun _ _ _ _ Ri H2) as ->.
    pose proof (required_fun _ _ _ _ Rn H3) as ->.
    pose proof (required_fun _ _ _ _ Rt H5) as <-.
    apply attr_or_empty_iff in H4. apply attr_bool_iff in H7, H8.
    apply attr_in_iff in H9, H10. apply typed_domain_href_iff in H11.
    f_equal; auto.
    + f_equal. exact H4.
    + eapply resolves_fun; eauto. apply xmlns_resolves.
    + destruct H6 as [(v&Hv&Hr)|[Hn ->]].
      * apply required_iff in Hv as (sa&->&<-). eapply resolves_fun; eauto. apply xmlns_resolves.
      * apply required_None in Hn. now rewrite Hn.
Qed.
Lemma declares_concept_fun f file e c c' :
  declares_concept f file e c -> declares_concept f file e c' -> c = c'.
Proof. intros H H'. apply hydrate_concept_iff in H, H'. congruence. Qed.

Lemma hydrate_concepts_image f file :
  image_of (declares_concept f file) (sf_element f) (hydrate_concepts f file).
Proof. apply collect_image. intros. apply hydrate_concept_iff. Qed.

(** ** Role types *)
Lemma hydrate_role_type_iff e r : hydrate_role_type e = Some r <-> declares_role e r.
Proof.
  unfold hydrate_role_type. destruct (String.eqb_spec (nspace (rt_name e)) LINK) as [S|S]; simpl.
  2:{ split; [discriminate|]. intros [H]. contradiction. }
  destruct (attr_nonempty (rt_attrs e) "id") as [ia|] eqn:Ei.
  2:{ split; [discriminate|]. intros []. exfalso; eapply required_None; eauto. }
  destruct (attr_nonempty (rt_attrs e) "roleURI") as [ua|] eqn:Eu.
  2:{ split; [discriminate|]. intros []. exfalso; eapply (required_None _ "roleURI"); eauto. }
  assert (Ri : required (rt_attrs e) "id" (avalue ia)) by (apply required_iff; eauto).
  assert (Ru : required (rt_attrs e) "roleURI" (avalue ua)) by (apply required_iff; eauto).
  assert (I : image_of (fun u s => nspace (ename u) = "http://www.xbrl.org/2003/linkbase" /\ s = etext u)
     (rt_usedOn e) (map etext (filter (fun u => String.eqb (nspace (ename u)) LINK) (rt_usedOn e)))).
  { apply map_filter_image. intros x y. rewrite String.eqb_eq. tauto. }
  split.
  - intro H; injection H; intros <-. constructor; simpl; auto.
    destruct (rt_definition e) as [|d t]; [right|left]; eauto.
  - intros [_ Hi Hu Hd Hus]. destruct r as [u i d us]; simpl in *. f_equal. f_equal.
    + eapply required_fun; eauto.
    + eapply required_fun; eauto.
    + destruct Hd as [(x&t&->&->)|[-> ->]]; auto.
    + eapply image_of_fun; eauto. intros x y z [_ ->] [_ ->]; auto.
Qed.
Lemma declares_role_fun e r r' : declares_role e r -> declares_role e r' -> r = r'.
Proof. intros H H'. apply hydrate_role_type_iff in H, H'. congruence. Qed.

Lemma hydrate_annotation_first f a rest i restI :
  sf_annotation f = a :: rest -> an_appinfo a = i :: restI ->
  nspace (an_name a) = "http://www.w3.org/2001/XMLSchema" ->
  nspace (ai_name i) = "http://www.w3.org/2001/XMLSchema" ->
  image_of declares_role (ai_roleType i) (hydrate_annotation f).
Proof.
  intros Hf Hi Ha Hs. unfold hydrate_annotation. rewrite Hf, Hi, Ha, Hs. simpl.
  apply collect_image. intros; apply hydrate_role_type_iff.
Qed.
Lemma hydrate_annotation_sound f r :
  In r (hydrate_annotation f) -> exists e, role_elem_of f e /\ declares_role e r.
Proof.
  unfold hydrate_annotation, role_elem_of. destruct (sf_annotation f) as [|a rest]; [simpl; tauto|].
  destruct (String.eqb_spec (nspace (an_name a)) XSD) as [Ha|Ha]; simpl; [|tauto].
  destruct (an_appinfo a) as [|i restI] eqn:Hi; [simpl; tauto|].
  destruct (String.eqb_spec (nspace (ai_name i)) XSD) as [Hs|Hs]; simpl; [|tauto].
  intro H. apply collect_In in H as (e&He&Hr). apply hydrate_role_type_iff in Hr.
  exists e. split; auto. exists a, i. rewrite Hi. simpl. auto 10.
Qed.
(** only the first annotation's first appinfo counts *)
Lemma hydrate_annotation_complete f e r :
  (forall a, In a (sf_annotation f) -> In a (firstn 1 (sf_annotation f))) ->
  (forall a i, In a (sf_annotation f) -> In i (an_appinfo a) -> In i (firstn 1 (an_appinfo a))) ->
  role_elem_of f e -> declares_role e r -> In r (hydrate_annotation f).
Proof.
  intros H1 H2 (a&i&Ha&Sa&Hi&Si&He) Hr.
  pose proof (H1 a Ha) as Ha1. pose proof (H2 a i Ha Hi) as Hi1.
  destruct (sf_annotation f) as [|a0 rest] eqn:E0; [destruct Ha|].
  destruct (an_appinfo a) as [|i0 restI] eqn:E1; [destruct Hi|].
  simpl in Ha1, Hi1. destruct Ha1 as [->|[]]. destruct Hi1 as [->|[]].
  eapply image_of_In'; [|eapply hydrate_annotation_first; eauto| |]; eauto.
  apply declares_role_fun.
Qed.

(** ** Lookups *)
Lemma schema_at_iff q loc s :
  NoDup (map fst (q_schemas q)) ->
  (schema_at q loc = Ok s <->
   exists f, document_at q loc f /\ loc <> "" /\
     s = Schema loc (hydrate_annotation f) (hydrate_concepts f loc)).
Proof.
  intro ND. unfold schema_at, document_at, hydrate_global_schema, hydrate_schema.
  destruct (q_is_url q loc) eqn:U.
  - destruct (q_discover q loc) as [f|m|] eqn:D; simpl.
    + destruct (nonempty loc) eqn:N; simpl.
      * apply nonempty_iff in N. split.
        -- intro H; injection H; intros <-. exists f. auto.
        -- intros (f'&[[_ Hf]|[? _]]&_&->); congruence.
      * apply nonempty_false in N. split; [discriminate|]. intros (f'&_&Hn&_). contradiction.
    + split; [discriminate|]. intros (f'&[[_ Hf]|[? _]]&_&->); congruence.
    + split; [discriminate|]. intros (f'&[[_ Hf]|[? _]]&_&->); congruence.
  - destruct (nonempty loc) eqn:N; simpl.
    + apply nonempty_iff in N. destruct (sget loc (q_schemas q)) as [f|] eqn:G.
      * apply (mget_In _ seqP) in G. split.
        -- intro H; injection H; intros <-. exists f. auto 10.
        -- intros (f'&[[? _]|[_ [Hi|[Hn _]]]]&_&->); [congruence| |].
           ++ apply (In_mget _ seqP) in G; auto. apply (In_mget _ seqP) in Hi; auto. congruence.
           ++ exfalso; apply Hn. apply in_map_iff. exists (loc, f). auto.
      * apply (mget_None _ seqP) in G. split.
        -- intro H; injection H; intros <-. exists empty_schema_file. repeat split; auto.
        -- intros (f'&[[? _]|[_ [Hi|[_ ->]]]]&_&->); [congruence| |auto].
           exfalso; apply G. apply in_map_iff. exists (loc, f'). auto.
    + apply nonempty_false in N. split; [discriminate|]. intros (f'&_&Hn&_). contradiction.
Qed.

Lemma find_concept_local cs nsp l c :
  find (fun c => String.eqb l (nlocal (cXMLName c)) && String.eqb nsp (nspace (cXMLName c))) cs = Some c
  <-> first_such (fun c => cXMLName c = XName nsp l) cs c.
Proof.
  rewrite find_first_such. split; apply first_such_iff; intros y _;
    destruct (cXMLName y) as [s' l']; simpl; rewrite andb_true_iff, !String.eqb_eq; split;
    try (intros [-> ->]; auto); intro H; injection H; intros; subst; auto.
Qed.

Lemma name_query_iff q nsp l href c :
  qenv_ok q ->
  (name_query q nsp l = Ok (Some (href, c)) <->
   exists loc f cs, In (nsp, loc) (q_namespaces q) /\ loc <> "" /\ document_at q loc f /\
     concepts_of f loc cs /\ first_such (fun c => cXMLName c = XName nsp l) cs c /\
     href = loc ++ "#" ++ cID c).
Proof.
  intros [ND1 ND2]. unfold name_query. destruct (sget nsp (q_namespaces q)) as [loc|] eqn:G.
  - apply (mget_In _ seqP) in G. destruct (nonempty loc) eqn:N; simpl.
    + apply nonempty_iff in N. destruct (schema_at q loc) as [s|m|] eqn:S; simpl.
      * pose proof S as S'. apply schema_at_iff in S' as (f&Hf&_&->); auto. simpl.
        destruct (find _ (hydrate_concepts f loc)) as [c'|] eqn:F.
        -- apply find_concept_local in F. split.
           ++ intro H; injection H; intros <- <-. exists loc, f, (hydrate_concepts f loc).
              repeat split; auto. apply hydrate_concepts_image.
           ++ intros (loc'&f'&cs&Hl&_&Hd&Hc&Hfs&->).
              apply (In_mget _ seqP) in Hl; auto. apply (In_mget _ seqP) in G; auto.
              assert (loc' = loc) as -> by congruence.
              assert (E : Schema loc (hydrate_annotation f') (hydrate_concepts f' loc) =
                          Schema loc (hydrate_annotation f) (hydrate_concepts f loc)).
              { assert (S2 : schema_at q loc = Ok (Schema loc (hydrate_annotation f') (hydrate_concepts f' loc)))
                  by (apply schema_at_iff; eauto). congruence. }
              injection E; intros E1 _.
              assert (cs = hydrate_concepts f loc) as ->.
              { rewrite <- E1. eapply image_of_fun; eauto.
                - apply declares_concept_fun.
                - apply hydrate_concepts_image. }
              rewrite (first_such_unique _ _ _ _ Hfs F). auto.
        -- split; [discriminate|].
           intros (loc'&f'&cs&Hl&_&Hd&Hc&Hfs&->).
           apply (In_mget _ seqP) in Hl; auto. apply (In_mget _ seqP) in G; auto.
           assert (loc' = loc) as -> by congruence.
           assert (S2 : schema_at q loc = Ok (Schema loc (hydrate_annotation f') (hydrate_concepts f' loc)))
             by (apply schema_at_iff; eauto).
           assert (E1 : hydrate_concepts f' loc = hydrate_concepts f loc) by congruence.
           assert (cs = hydrate_concepts f loc) as ->.
           { rewrite <- E1. eapply image_of_fun; eauto.
             - apply declares_concept_fun.
             - apply hydrate_concepts_image. }
           apply find_concept_local in Hfs. congruence.
      * split; [discriminate|]. intros (loc'&f'&cs&Hl&_&Hd&Hc&Hfs&->).
        apply (In_mget _ seqP) in Hl; auto. apply (In_mget _ seqP) in G; auto.
        assert (loc' = loc) as -> by congruence.
        assert (S2 : schema_at q loc = Ok (Schema loc (hydrate_annotation f') (hydrate_concepts f' loc)))
          by (apply schema_at_iff; eauto). congruence.
      * split; [discriminate|]. intros (loc'&f'&cs&Hl&_&Hd&Hc&Hfs&->).
        apply (In_mget _ seqP) in Hl; auto. apply (In_mget _ seqP) in G; auto.
        assert (loc' = loc) as -> by congruence.
        assert (S2 : schema_at q loc = Ok (Schema loc (hydrate_annotation f') (hydrate_concepts f' loc)))
          by (apply schema_at_iff; eauto). congruence.
    + apply nonempty_false in N. subst. split; [discriminate|].
      intros (loc'&f'&cs&Hl&Hn&_).
      apply (In_mget _ seqP) in Hl; auto. apply (In_mget _ seqP) in G; auto. congruence.
  - apply (mget_None _ seqP) in G. simpl. split; [discriminate|].
    intros (loc'&f'&cs&Hl&_). exfalso; apply G. apply in_map_iff. exists (nsp, loc'). auto.
Qed.

Lemma cut_hash base frag : free_of "#" base -> cut "#" (base ++ String "#" frag) = Some (base, frag).
Proof. intro F. apply cut_Some_iff. auto. Qed.

Lemma hash_query_iff order q query nsp c :
  qenv_ok q ->
  (hash_query order q query = Ok (nsp, c) <->
   exists base frag f cs, query = base ++ String "#" frag /\ free_of "#" base /\ base <> "" /\ frag <> "" /\
     document_at q base f /\ concepts_of f base cs /\ first_such (fun c => cID c = frag) cs c /\
     nsp = namespace_of order base).
Proof.
  intros [_ ND]. unfold hash_query. destruct (cut "#" query) as [[base frag]|] eqn:E.
  2:{ split; [discriminate|]. intros (b&fr&f&cs&->&F&_). rewrite cut_hash in E by auto. discriminate. }
  pose proof E as E'. apply cut_Some_iff in E' as [-> F].
  assert (U : forall b fr, base ++ String "#" frag = b ++ String "#" fr -> free_of "#" b -> b = base /\ fr = frag).
  { intros b fr Hq Hb. rewrite Hq, cut_hash in E by auto. injection E; auto. }
  destruct (nonempty base) eqn:Nb; simpl.
  2:{ apply nonempty_false in Nb. split; [discriminate|]. intros (b&fr&f&cs&Hq&Fb&Hb&_).
      destruct (U _ _ Hq Fb) as [-> _]. contradiction. }
  destruct (nonempty frag) eqn:Nf; simpl.
  2:{ apply nonempty_false in Nf. split; [discriminate|]. intros (b&fr&f&cs&Hq&Fb&_&Hf&_).
      destruct (U _ _ Hq Fb) as [_ ->]. contradiction. }
  apply nonempty_iff in Nb, Nf.
  assert (FF : forall cs, find (fun c => String.eqb frag (cID c)) cs = Some c <->
              first_such (fun c => cID c = frag) cs c).
  { intro cs. rewrite find_first_such. split; apply first_such_iff; intros y _; rewrite String.eqb_eq; split; auto. }
  destruct (schema_at q base) as [s|m|] eqn:S; simpl.
  - pose proof S as S'. apply schema_at_iff in S' as (f&Hf&_&->); auto. simpl.
    assert (CS : forall f' cs, document_at q base f' -> concepts_of f' base cs -> cs = hydrate_concepts f base).
    { intros f' cs Hd Hc.
      assert (S2 : schema_at q base = Ok (Schema base (hydrate_annotation f') (hydrate_concepts f' base)))
        by (apply schema_at_iff; eauto).
      assert (E1 : hydrate_concepts f' base = hydrate_concepts f base) by congruence.
      rewrite <- E1. eapply image_of_fun; eauto.
      - apply declares_concept_fun.
      - apply hydrate_concepts_image. }
    destruct (find _ (hydrate_concepts f base)) as [c'|] eqn:Fd.
    + split.
      * intro H; injection H; intros <- <-. exists base, frag, f, (hydrate_concepts f base).
        repeat split; auto. apply hydrate_concepts_image. now apply FF.
      * intros (b&fr&f'&cs&Hq&Fb&_&_&Hd&Hc&Hs&->). destruct (U _ _ Hq Fb) as [-> ->].
        rewrite (CS _ _ Hd Hc) in Hs. apply FF in Hs. congruence.
    + split; [discriminate|].
      intros (b&fr&f'&cs&Hq&Fb&_&_&Hd&Hc&Hs&->). destruct (U _ _ Hq Fb) as [-> ->].
      rewrite (CS _ _ Hd Hc) in Hs. apply FF in Hs. congruence.
  - split; [discriminate|].
    intros (b&fr&f'&cs&Hq&Fb&_&_&Hd&Hc&Hs&->). destruct (U _ _ Hq Fb) as [-> ->].
    assert (S2 : schema_at q base = Ok (Schema base (hydrate_annotation f') (hydrate_concepts f' base)))
      by (apply schema_at_iff; eauto). congruence.
  - split; [discriminate|].
    intros (b&fr&f'&cs&Hq&Fb&_&_&Hd&Hc&Hs&->). destruct (U _ _ Hq Fb) as [-> ->].
    assert (S2 : schema_at q base = Ok (Schema base (hydrate_annotation f') (hydrate_concepts f' base)))
      by (apply schema_at_iff; eauto). congruence.
Qed.

(** with duplicate-free ids the first match is the only one *)
Lemma first_of_unique {A B} (g : A -> B) l x :
  NoDup (map g l) -> In x l -> first_such (fun y => g y = g x) l x.
Proof.
  intros ND Hx. apply in_split in Hx as (l1&l2&->). exists l1, l2. repeat split; auto.
  intros y Hy E. rewrite map_app in ND. simpl in ND. apply NoDup_remove_2 in ND.
  apply ND. apply in_app_iff. left. rewrite <- E. now apply in_map.
Qed.
Lemma first_such_In {A} (P : A -> Prop) l x : first_such P l x -> In x l /\ P x.
Proof. intros (l1&l2&->&Hx&_). split; auto. apply in_app_iff; simpl; auto. Qed.

Lemma concept_id_nonempty f loc cs c : concepts_of f loc cs -> In c cs -> cID c <> "".
Proof.
  intros Hc Hi. destruct (image_of_In _ _ _ _ Hc Hi) as (e&_&[_ [_ Hn] _ _ _ _ _ _ _ _ _]). exact Hn.
Qed.

Lemma namespace_of_unique order base k :
  In (k, base) order -> (forall k', In (k', base) order -> k' = k) -> namespace_of order base = k.
Proof.
  unfold namespace_of.
  assert (G : forall acc, (acc = k \/ In (k, base) order) ->
    (forall k', In (k', base) order -> k' = k) ->
    fold_left (fun acc kv => if String.eqb (snd kv) base then fst kv else acc) order acc = k).
  { induction order as [|[k1 b1] t IH]; simpl; intros acc Ha Hu.
    - destruct Ha as [|[]]; auto.
    - apply IH.
      + destruct (String.eqb_spec b1 base) as [->|Nb]; simpl.
        * left. apply Hu; auto.
        * destruct Ha as [|[E|]]; auto. injection E; intros; subst. contradiction.
      + intros; apply Hu; auto. }
  intros Hi Hu. apply G; auto.
Qed.

Lemma namespace_of_spec order base :
  In (namespace_of order base, base) order \/
  ((forall k, ~ In (k, base) order) /\ namespace_of order base = "").
Proof.
  unfold namespace_of.
  assert (G : forall acc, let r := fold_left (fun acc kv => if String.eqb (snd kv) base then fst kv else acc) order acc in
    In (r, base) order \/ ((forall k, ~ In (k, base) order) /\ r = acc)).
  { induction order as [|[k1 b1] t IH]; simpl; intros acc; auto.
    destruct (String.eqb_spec b1 base) as [->|Nb].
    - destruct (IH k1) as [H|[H ->]]; auto.
    - destruct (IH acc) as [H|[H ->]]; auto. right. split; auto.
      intros k [E|Hk]; [congruence|eapply H; eauto]. }
  apply G.
Qed.
Lemma hash_query_namespace order q base frag nsp c :
  qenv_ok q -> Permutation order (q_namespaces q) -> free_of "#" base ->
  hash_query order q (base ++ "#" ++ frag) = Ok (nsp, c) ->
  In (nsp, base) (q_namespaces q) \/ ((forall k, ~ In (k, base) (q_namespaces q)) /\ nsp = "").
Proof.
  intros Hq HP F H. apply hash_query_iff in H; auto.
  destruct H as (b&fr&f&cs&E&Fb&_&_&_&_&_&->).
  assert (C : Some (base, frag) = Some (b, fr)).
  { rewrite <- (cut_hash base frag), <- (cut_hash b fr) by auto. now f_equal. }
  injection C; intros <- <-.
  destruct (namespace_of_spec order base) as [H|[H ->]].
  - left. eapply Permutation_in; eauto.
  - right. split; auto. intros k Hk. apply (H k). eapply Permutation_in; [symmetry; eauto|auto].
Qed.

Lemma name_then_hash order q nsp l href c :
  qenv_ok q -> name_query q nsp l = Ok (Some (href, c)) ->
  (forall loc f cs, In (nsp, loc) (q_namespaces q) -> document_at q loc f -> concepts_of f loc cs ->
     free_of "#" loc /\ unique_ids cs) ->
  exists k, hash_query order q href = Ok (k, c) /\
    (Permutation order (q_namespaces q) ->
     (forall k1 k2 loc, In (k1, loc) (q_namespaces q) -> In (k2, loc) (q_namespaces q) -> k1 = k2) ->
     k = nsp).
Proof.
  intros Hq Hn Hwf. apply name_query_iff in Hn; auto.
  destruct Hn as (loc&f&cs&Hl&Nl&Hd&Hc&Hs&->). destruct (Hwf loc f cs) as [Fl Ui]; auto.
  apply first_such_In in Hs as [Hi _].
  exists (namespace_of order loc). split.
  - apply hash_query_iff; auto. exists loc, (cID c), f, cs. repeat split; auto.
    + eapply concept_id_nonempty; eauto.
    + now apply (first_of_unique cID).
  - intros HP Hu. apply namespace_of_unique.
    + eapply Permutation_in; [symmetry; exact HP|exact Hl].
    + intros k' Hk'. eapply Hu; [eapply Permutation_in; [exact HP|exact Hk']|exact Hl].
Qed.

Lemma hash_then_name order q query nsp c :
  qenv_ok q -> hash_query order q query = Ok (nsp, c) -> Permutation order (q_namespaces q) ->
  (* the folder maps the concept's namespace to the queried document *)
  (forall base frag, query = base ++ String "#" frag -> free_of "#" base ->
     In (nspace (cXMLName c), base) (q_namespaces q)) ->
  (forall loc f cs, document_at q loc f -> concepts_of f loc cs -> unique_names cs) ->
  name_query q (nspace (cXMLName c)) (nlocal (cXMLName c)) = Ok (Some (query, c)).
Proof.
  intros Hq Hh HP Hn Hu. apply hash_query_iff in Hh; auto.
  destruct Hh as (base&frag&f&cs&->&Fb&Nb&Nf&Hd&Hc&Hs&->).
  apply name_query_iff; auto. exists base, f, cs.
  pose proof (first_such_In _ _ _ Hs) as [Hi Hid].
  repeat split; auto.
  - eapply Hn; eauto.
  - destruct (first_of_unique (fun c => nlocal (cXMLName c)) cs c (Hu _ _ _ Hd Hc) Hi) as (l1&l2&E&_&Hnn).
    exists l1, l2. repeat split; auto.
    + now destruct (cXMLName c).
    + intros y Hy Ey. apply (Hnn y Hy). now rewrite Ey.
  - now rewrite Hid.
Qed.

(** ** EntityQuery *)
Lemma entity_query_spec names scheme chardata :
  (forall m, names = Err m -> entity_query names scheme chardata = Err m) /\
  (forall ns, names = Ok ns -> NoDup (map fst ns) -> (forall s m, In (s, m) ns -> NoDup (map fst m)) ->
     exists r, entity_query names scheme chardata = Ok r /\
     ((exists m, In (scheme, m) ns /\ In (chardata, r) m) \/
      ((forall m n, In (scheme, m) ns -> ~ In (chardata, n) m) /\ r = scheme ++ "/" ++ chardata))).
Proof.
  split; [intros m ->; auto|]. intros ns -> ND NDs. unfold entity_query. simpl.
  destruct (sget scheme ns) as [m|] eqn:E.
  - apply (mget_In _ seqP) in E. destruct (sget chardata m) as [y|] eqn:F.
    + exists y. split; auto. left. exists m. split; auto. now apply (mget_In _ seqP) in F.
    + eexists. split; [reflexivity|]. right. split; auto.
      intros m' n Hm' Hn. apply (In_mget _ seqP) in E; auto. apply (In_mget _ seqP) in Hm'; auto.
      assert (m' = m) as -> by congruence. apply (mget_None _ seqP) in F. apply F.
      apply in_map_iff. exists (chardata, n). auto.
  - eexists. split; [reflexivity|]. right. split; auto.
    intros m' n Hm' _. apply (mget_None _ seqP) in E. apply E.
    apply in_map_iff. exists (scheme, m'). auto.
Qed.
