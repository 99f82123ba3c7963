(** * XmlProofs: lemmas for XmlProps *)
From Verif Require Import GoBase GoSpec GoFacts AttrModel AttrSpec AttrProofs SchemaModel SchemaSpec SchemaProofs
  LinkbaseModel LinkbaseSpec LinkbaseProofs InstanceModel InstanceSpec InstanceProofs HydrateModel HydrateSpec XmlModel XmlSpec.
Local Open Scope string_scope.

(** ** Lists *)
Lemma image_map_filter {A B C} (R : B -> C -> Prop) (f : A -> B) (P : A -> bool) l l' :
  image_of R (map f (filter P l)) l' -> image_of (fun x y => P x = true /\ R (f x) y) l l'.
Proof.
  revert l'. induction l as [|x l IH]; simpl; intros l' H.
  - inversion H; subst. constructor.
  - destruct (P x) eqn:E; simpl in H.
    + inversion H; subst.
      * apply image_keep; auto.
      * apply image_skip; auto. intros y [_ ?]. now apply (H2 y).
    + apply image_skip; auto. intros y [? _]. congruence.
Qed.
Lemma image_ext {A B} (R S : A -> B -> Prop) l l' :
  (forall x y, In x l -> (R x y <-> S x y)) -> image_of R l l' -> image_of S l l'.
Proof.
  intros E H. induction H as [|x y l l' r H IH|x l l' n H IH].
  - constructor.
  - apply image_keep; [apply E; simpl; auto|]. apply IH. intros; apply E; simpl; auto.
  - apply image_skip.
    + intros y Hy. apply (n y), E; simpl; auto.
    + apply IH. intros; apply E; simpl; auto.
Qed.
Lemma image_ext_iff {A B} (R S : A -> B -> Prop) l l' :
  (forall x y, In x l -> (R x y <-> S x y)) -> (image_of R l l' <-> image_of S l l').
Proof. intro E. split; apply image_ext; auto. intros. symmetry. auto. Qed.
Lemma image_map_filter_iff {A B C} (R : B -> C -> Prop) (f : A -> B) (P : A -> bool) l l' :
  image_of R (map f (filter P l)) l' <-> image_of (fun x y => P x = true /\ R (f x) y) l l'.
Proof.
  split; [apply image_map_filter|].
  intro H. induction H as [|x y l l' [p r] H IH|x l l' n H IH]; simpl.
  - constructor.
  - rewrite p. simpl. now apply image_keep.
  - destruct (P x) eqn:E; auto. simpl. apply image_skip; auto. intros y Hy. apply (n y). auto.
Qed.
Lemma filter_first {A} (P : A -> bool) l y :
  (exists r, filter P l = y :: r) <-> first_such (fun x => P x = true) l y.
Proof.
  split.
  - intros (r&H). induction l as [|x l IH]; simpl in H; [discriminate|].
    destruct (P x) eqn:E.
    + injection H; intros _ ->. exists [], l. simpl. intuition.
    + destruct (IH H) as (l1&l2&->&Py&F). exists (x :: l1), l2. split; auto. split; auto.
      intros z [<-|Hz]; [congruence|auto].
  - intros (l1&l2&->&Py&F). exists (filter P l2). rewrite filter_app. simpl. rewrite Py.
    replace (filter P l1) with (@nil A); auto. symmetry. induction l1 as [|x l1 IH]; simpl; auto.
    destruct (P x) eqn:E; [exfalso; apply (F x); simpl; auto|]. apply IH. intros; apply F; simpl; auto.
Qed.
Lemma first_such_ext {A} (P Q : A -> Prop) l y :
  (forall x, In x l -> (P x <-> Q x)) -> (first_such P l y <-> first_such Q l y).
Proof.
  intro E. split; intros (l1&l2&->&p&F); exists l1, l2; (split; [auto|]).
  - split; [apply E; auto; apply in_or_app; simpl; auto|].
    intros z Hz q. apply (F z Hz), E; auto. apply in_or_app; auto.
  - split; [apply E; auto; apply in_or_app; simpl; auto|].
    intros z Hz q. apply (F z Hz), E; auto. apply in_or_app; auto.
Qed.
Lemma filter_nil {A} (P : A -> bool) l : filter P l = [] <-> forall x, In x l -> P x <> true.
Proof.
  induction l as [|x l IH]; simpl; [intuition|]. destruct (P x) eqn:E.
  - split; [discriminate|]. intro H. exfalso. now apply (H x); auto.
  - rewrite IH. split; [intros H y [<-|Hy]; [congruence|auto]|auto].
Qed.

(** ** Trees *)
Lemma has_tag_iff {A} l (x : xml A) : has_tag l x = true <-> locally_named l x.
Proof.
  destruct x as [s|[s l'] a i ks]; simpl.
  - split; [discriminate|]. intros (?&?&?&?&H). discriminate.
  - rewrite String.eqb_eq. split.
    + intros ->. exists s, a, i, ks. reflexivity.
    + intros (s'&a'&i'&ks'&H). now injection H.
Qed.
(** a local name that only occurs in one namespace *)
Definition only_in {A} (s l : string) (x : xml A) : Prop := forall y s', In y (kids x) -> named s' l y -> s' = s.
Lemma has_tag_named {A} s l (x y : xml A) : only_in s l x -> In y (kids x) -> (has_tag l y = true <-> named s l y).
Proof.
  intros O Hy. rewrite has_tag_iff. split.
  - intros (s'&H). pose proof (O y s' Hy H) as ->. auto.
  - intro H. exists s. auto.
Qed.
Lemma field_first {A} s l (x y : xml A) : only_in s l x ->
  ((exists r, field l x = y :: r) <-> first_child s l x y).
Proof.
  intro O. unfold field, first_child. rewrite filter_first. apply first_such_ext.
  intros z Hz. now apply (has_tag_named s l x).
Qed.
Lemma field_nil {A} s l (x : xml A) : only_in s l x -> (field l x = [] <-> no_child s l x).
Proof.
  intro O. unfold field, no_child. rewrite filter_nil. split; intros H y Hy.
  - intro N. apply (H y Hy). now apply (has_tag_named s l x).
  - intro N. apply (H y Hy). now apply (has_tag_named s l x).
Qed.
Lemma field_image {A B C} s l (x : xml A) (f : xml A -> B) (R : B -> C -> Prop) l' : only_in s l x ->
  (image_of R (map f (field l x)) l' <-> image_of (fun y z => named s l y /\ R (f y) z) (kids x) l').
Proof.
  intro O. unfold field. rewrite image_map_filter_iff. apply image_ext_iff. intros y z Hy.
  now rewrite (has_tag_named s l x y O Hy).
Qed.
Lemma map_cons_iff {A B} (f : A -> B) l z r :
  map f l = z :: r <-> exists y r', l = y :: r' /\ z = f y /\ r = map f r'.
Proof.
  split.
  - destruct l as [|y r']; simpl; [discriminate|]. intro H. injection H; intros <- <-. eauto.
  - intros (y&r'&->&->&->). reflexivity.
Qed.
Lemma map_nil_iff {A B} (f : A -> B) l : map f l = [] <-> l = [].
Proof. destruct l; simpl; split; auto; discriminate. Qed.

(** ** Texts *)
Lemma concat_fold l : String.concat "" l = fold_right append "" l.
Proof.
  induction l as [|a [|b l] IH]; simpl in *; auto.
  - now rewrite append_nil_r.
  - now rewrite <- IH.
Qed.
Lemma chardata_direct (x : tree) : chardata x = direct_text x.
Proof.
  unfold chardata, direct_text. rewrite concat_fold. change (@x_kids xattr) with (@kids xattr).
  induction (kids x) as [|k l IH]; simpl; auto. rewrite IH. destruct k; reflexivity.
Qed.
Lemma plain_value (x : tree) : element x -> (forall k, In k (kids x) -> exists t, k = XmlText t) -> string_value x = chardata x.
Proof.
  intros (n&a&i&ks&->) H. rewrite chardata_direct. unfold direct_text. simpl in *.
  induction ks as [|k l IH]; simpl; auto. destruct (H k (or_introl eq_refl)) as [t ->]. simpl. rewrite IH; [reflexivity|].
  intros k' Hk. apply H. now right.
Qed.
Lemma string_snoc s : s = "" \/ exists r c, s = r ++ String c "".
Proof.
  induction s as [|c s [->|(r&d&->)]]; auto; right.
  - exists "", c. reflexivity.
  - exists (String c r), d. reflexivity.
Qed.
Lemma trimmed_fixed s t : trimmed s s -> (trimmed s t <-> t = s).
Proof.
  intro F. split; [|intros ->; auto].
  intros (a&b&E&Wa&Wb&_). destruct F as (a'&b'&_&_&_&F1&F2).
  assert (a = "") as ->.
  { destruct a as [|c a]; auto. exfalso. apply (F1 c (a ++ t ++ b)); auto. apply Wa. simpl. tauto. }
  simpl in E. assert (b = "") as ->.
  { destruct (string_snoc b) as [?|(r&c&->)]; auto. exfalso. apply (F2 c (t ++ r)); [now rewrite append_assoc|].
    apply Wb. rewrite free_of_app. simpl. tauto. }
  now rewrite append_nil_r in E.
Qed.

(** ** Scopes *)
Definition no_decl (l : list xattr) : Prop :=
  forall a, In a l -> nspace (aname a) <> "xmlns" /\ nlocal (aname a) <> "xmlns".
Lemma no_decl_app l l' : no_decl l -> no_decl l' -> no_decl (l ++ l').
Proof. intros H H' a Ha. apply in_app_or in Ha as [Ha|Ha]; auto. Qed.
Lemma no_decl_nil : no_decl [].
Proof. intros a []. Qed.
Lemma first_such_skip {A} (P : A -> Prop) l l' x : (forall y, In y l -> ~ P y) ->
  (first_such P (l ++ l') x <-> first_such P l' x).
Proof.
  intro N. split.
  - induction l as [|y l IH]; simpl; auto. intros (l1&l2&E&Px&F).
    destruct l1 as [|z l1]; simpl in E; injection E; intros E' ->.
    + exfalso. apply (N x); simpl; auto.
    + apply IH; [intros; apply N; simpl; auto|]. exists l1, l2. split; auto. split; auto.
      intros w Hw. apply F. simpl; auto.
  - intros (l1&l2&->&Px&F). exists (l ++ l1)%list, l2. rewrite <- app_assoc. split; [reflexivity|]. split; [exact Px|].
    intros y Hy. apply in_app_or in Hy as [Hy|Hy]; auto.
Qed.
Lemma bound_ns_skip l attrs p v : no_decl l -> (bound_ns (l ++ attrs) p v <-> bound_ns attrs p v).
Proof.
  intro N. unfold bound_ns. assert (NP : forall a, In a l -> ~ is_decl p a) by (intros a Ha [D _]; exact (proj1 (N a Ha) D)).
  split; intros [(a&F&E)|[F E]].
  - left. exists a. split; auto. exact (proj1 (first_such_skip _ l attrs a NP) F).
  - right. split; auto. intros; apply F, in_or_app; auto.
  - left. exists a. split; auto. now apply first_such_skip.
  - right. split; auto. intros a Ha. apply in_app_or in Ha as [Ha|Ha]; auto.
Qed.
Lemma default_of_skip l attrs v : no_decl l -> (default_of (l ++ attrs) v <-> default_of attrs v).
Proof.
  intro N. unfold default_of.
  assert (NP : forall a, In a l -> nlocal (aname a) <> "xmlns") by (intros a Ha; exact (proj2 (N a Ha))).
  split; intros [(a&F&E)|[F E]].
  - left. exists a. split; auto. exact (proj1 (first_such_skip _ l attrs a NP) F).
  - right. split; auto. intros; apply F, in_or_app; auto.
  - left. exists a. split; auto. now apply first_such_skip.
  - right. split; auto. intros a Ha. apply in_app_or in Ha as [Ha|Ha]; auto.
Qed.
Lemma resolves_skip l attrs s n : no_decl l -> (resolves (l ++ attrs) s n <-> resolves attrs s n).
Proof.
  intro N. split; intro H; inversion H; subst.
  - apply res_unprefixed; auto. now apply (default_of_skip l).
  - now apply res_nolocal.
  - apply res_bound; auto. now apply (bound_ns_skip l).
  - apply res_default; auto; [now apply (bound_ns_skip l)|now apply (default_of_skip l)].
  - apply res_unprefixed; auto. now apply (default_of_skip l).
  - now apply res_nolocal.
  - apply res_bound; auto. now apply (bound_ns_skip l).
  - apply res_default; auto; [now apply (bound_ns_skip l)|now apply (default_of_skip l)].
Qed.
Lemma qname_names_skip q l attrs s href c : no_decl l -> (qname_names q (l ++ attrs) s href c <-> qname_names q attrs s href c).
Proof. intro N. unfold qname_names. split; intros (n&R&S); exists n; (split; [now apply (resolves_skip l)|auto]). Qed.

(** ** Contexts and units *)
Section Conforming.
  Variables (q : qenv) (content : string -> string -> list (string * string) * list tarc -> Prop) (scope : list xattr) (x : tree).
  Hypothesis Hname : forall y s l, y = x \/ near x y -> named s l y ->
    (In l xbrli_names -> s = xbrli) /\ (In l xbrldi_names -> s = xbrldi).
  Hypothesis Hdecl : forall y a, y = x \/ near x y -> In a (attributes y) -> nspace (aname a) <> "xmlns" /\ nlocal (aname a) <> "xmlns".
  Hypothesis Htext : forall y l, y = x \/ near x y -> In l text_names -> locally_named l y ->
    (forall k, In k (kids y) -> exists t, k = XmlText t) /\ value y (string_value y).

  Definition reach (y : tree) : Prop := y = x \/ (near x y /\ ~ locally_named "typedMember" y).
  Lemma reach_ok y : reach y -> y = x \/ near x y.
  Proof. intros [?|[? _]]; auto. Qed.
  Lemma reach_kid y z : reach y -> In z (kids y) -> near x z.
  Proof.
    intros [->|[N T]] Hz; [now apply near_kid|]. eapply near_deep; eauto.
  Qed.
  Lemma reach_named y z s l : reach y -> In z (kids y) -> named s l z -> l <> "typedMember" -> reach z.
  Proof.
    intros R Hz (a&i&ks&->) NT. right. split; [eapply reach_kid; eauto|].
    intros (s'&a'&i'&ks'&E). injection E; intros. congruence.
  Qed.
  Lemma only_xbrli y l : reach y -> In l xbrli_names -> only_in xbrli l y.
  Proof. intros R Hl z s Hz N. apply (Hname z s l); auto. right. eapply reach_kid; eauto. Qed.
  Lemma only_xbrldi y l : reach y -> In l xbrldi_names -> only_in xbrldi l y.
  Proof. intros R Hl z s Hz N. apply (Hname z s l); auto. right. eapply reach_kid; eauto. Qed.
  Lemma first_child_In s l (y z : tree) : first_child s l y z -> In z (kids y) /\ named s l z.
  Proof. intros (l1&l2&E&N&_). rewrite E. split; auto. apply in_or_app; simpl; auto. Qed.
  Lemma child_reach s l y z : reach y -> first_child s l y z -> l <> "typedMember" -> reach z.
  Proof. intros R F N. apply first_child_In in F as [? ?]. eapply reach_named; eauto. Qed.
  Lemma decl_ok y : y = x \/ near x y -> no_decl (attributes y).
  Proof. intros H a Ha. eapply Hdecl; eauto. Qed.
  Lemma value_text y l s t : y = x \/ near x y -> In l text_names -> named s l y -> (value y t <-> t = chardata y).
  Proof.
    intros R Hl N. destruct (Htext y l R Hl) as [K V]; [now exists s|].
    assert (E : element y) by (destruct N as (?&?&?&->); unfold element; eauto).
    rewrite <- (plain_value y E K). now apply trimmed_fixed.
  Qed.

  Lemma explicit_iff y z e pre : reach y -> In z (kids y) -> no_decl pre ->
    (named xbrldi "explicitMember" z /\ is_explicit q scope (with_text z) e <-> explicit_at q (pre ++ scope) z e).
  Proof.
    intros R Hz NP. unfold is_explicit, explicit_at. cbn [eattrs etext with_text].
    assert (NZ : near x z) by (eapply reach_kid; eauto).
    assert (ND : no_decl (attributes z ++ pre)) by (apply no_decl_app; auto; apply decl_ok; auto).
    assert (Q : forall s h c, qname_names q (attributes z ++ pre ++ scope) s h c <-> qname_names q scope s h c).
    { intros. rewrite app_assoc. now apply qname_names_skip. }
    split.
    - intros (N&D&(c&C)&T&(c'&C')). split; auto. split; auto. split; [exists c; now apply Q|].
      split; [apply (value_text z "explicitMember" xbrldi); simpl; auto|].
      exists c'. apply Q. now rewrite T.
    - intros (N&D&(c&C)&T&(c'&C')). split; auto. split; auto. split; [exists c; now apply Q in C|].
      apply (value_text z "explicitMember" xbrldi) in T; simpl; auto. split; auto.
      exists c'. apply Q in C'. unfold with_text. cbn [etext]. now rewrite <- T.
  Qed.
  Lemma typed_iff y z e pre : reach y -> In z (kids y) -> no_decl pre ->
    (named xbrldi "typedMember" z /\ is_typed q scope content (with_inner z) e <-> typed_at q content (pre ++ scope) z e).
  Proof.
    intros R Hz NP. unfold is_typed, typed_at. cbn [eattrs etext with_inner].
    assert (NZ : near x z) by (eapply reach_kid; eauto).
    assert (ND : no_decl (attributes z ++ pre)) by (apply no_decl_app; auto; apply decl_ok; auto).
    assert (Q : forall s h c, qname_names q (attributes z ++ pre ++ scope) s h c <-> qname_names q scope s h c).
    { intros. rewrite app_assoc. now apply qname_names_skip. }
    split; intros (N&D&(c&C&T)&K); (split; [auto|]); (split; [auto|]); (split; [exists c; split; auto; now apply Q in C || now apply Q|auto]).
  Qed.

  Lemma members_iff y l d pre : reach y -> In l ["segment"; "scenario"] -> no_decl pre ->
    (members_of q scope content (map read_members (field l y)) d <-> members_at q content (pre ++ scope) l y d).
  Proof.
    intros R Hl NP. assert (O : only_in xbrli l y).
    { apply only_xbrli; auto. simpl. simpl in Hl. intuition; subst; auto 20. }
    assert (TM : l <> "typedMember") by (simpl in Hl; intuition; subst; discriminate).
    assert (TMx : l <> "explicitMember") by (simpl in Hl; intuition; subst; discriminate).
    assert (K : forall s, reach s -> 
      (image_of (is_explicit q scope) (sg_explicit (read_members s)) (dcExplicit d) <->
       image_of (explicit_at q (attributes s ++ pre ++ scope)) (kids s) (dcExplicit d)) /\
      (image_of (is_typed q scope content) (sg_typed (read_members s)) (dcTyped d) <->
       image_of (typed_at q content (attributes s ++ pre ++ scope)) (kids s) (dcTyped d))).
    { intros s RS. cbn [read_members sg_explicit sg_typed].
      assert (ND : no_decl (attributes s ++ pre)) by (apply no_decl_app; auto; apply decl_ok, reach_ok; auto).
      split.
      - etransitivity; [apply (field_image xbrldi "explicitMember" s with_text); apply only_xbrldi; simpl; auto|].
        apply image_ext_iff. intros z e Hz. rewrite app_assoc. now apply (explicit_iff s).
      - etransitivity; [apply (field_image xbrldi "typedMember" s with_inner); apply only_xbrldi; simpl; auto|].
        apply image_ext_iff. intros z e Hz. rewrite app_assoc. now apply (typed_iff s). }
    unfold members_of, members_at. split.
    - intros [[E ->]|(s&r&E&X&T)].
      + left. split; auto. apply map_nil_iff in E. now apply (field_nil xbrli) in E.
      + right. apply map_cons_iff in E as (s0&r'&E&->&_). exists s0.
        assert (F : first_child xbrli l y s0) by (apply field_first; eauto).
        destruct (K s0) as [K1 K2]; [eapply child_reach; eauto|]. split; auto. split; [now apply K1|now apply K2].
    - intros [[N ->]|(s&F&X&T)].
      + left. split; auto. apply map_nil_iff. now apply (field_nil xbrli).
      + right. destruct (K s) as [K1 K2]; [eapply child_reach; eauto|].
        apply (field_first xbrli l y s O) in F as (r&F). exists (read_members s), (map read_members r). rewrite F.
        split; auto. split; [now apply K1|now apply K2].
  Qed.

  Lemma text_of_iff y l t : reach y -> In l text_names -> In l xbrli_names ->
    (text_of (map with_text (field l y)) t <-> optional_value xbrli l y t).
  Proof.
    intros R Hl Hx. assert (O := only_xbrli y l R Hx).
    unfold text_of, optional_value. split.
    - intros [(e&r&E&->)|[E ->]].
      + left. apply map_cons_iff in E as (z&r'&E&->&_). exists z.
        assert (F : first_child xbrli l y z) by (apply field_first; eauto).
        split; auto. apply first_child_In in F as [Hz N]. eapply value_text; eauto. right. eapply reach_kid; eauto.
      + right. split; auto. apply map_nil_iff in E. now apply (field_nil xbrli) in E.
    - intros [(z&F&V)|[N ->]].
      + left. destruct (first_child_In _ _ _ _ F) as [Hz N].
        apply (value_text z l xbrli) in V; auto; [|right; eapply reach_kid; eauto].
        apply (field_first xbrli l y z O) in F as (r&F). exists (with_text z), (map with_text r). rewrite F. auto.
      + right. split; auto. apply map_nil_iff. now apply (field_nil xbrli).
  Qed.
  Lemma first_text_iff y l t : reach y -> In l text_names -> In l xbrli_names ->
    ((exists e r, map with_text (field l y) = e :: r /\ etext e = t) <->
     exists z, first_child xbrli l y z /\ value z t).
  Proof.
    intros R Hl Hx. assert (O := only_xbrli y l R Hx). split.
    - intros (e&r&E&<-). apply map_cons_iff in E as (z&r'&E&->&_). exists z.
      assert (F : first_child xbrli l y z) by (apply field_first; eauto).
      split; auto. apply first_child_In in F as [Hz N]. eapply value_text; eauto. right. eapply reach_kid; eauto.
    - intros (z&F&V). destruct (first_child_In _ _ _ _ F) as [Hz N].
      apply (value_text z l xbrli) in V; auto; [|right; eapply reach_kid; eauto].
      apply (field_first xbrli l y z O) in F as (r&F). exists (with_text z), (map with_text r). rewrite F. auto.
  Qed.
  Lemma no_text_iff y l : reach y -> In l xbrli_names -> (map with_text (field l y) = [] <-> no_child xbrli l y).
  Proof. intros R Hx. rewrite map_nil_iff. apply field_nil. now apply only_xbrli. Qed.

  Lemma reach_x : reach x. Proof. now left. Qed.
  Ltac inlist := simpl; auto 20.

  Lemma period_iff i s e : period_of (map read_period (field "period" x)) i s e <-> period_at x i s e.
  Proof.
    assert (O : only_in xbrli "period" x) by (apply only_xbrli; [apply reach_x|inlist]).
    split.
    - intro H. inversion H as [E|p r i' sv rs nv rn I S N E|p r i' I D E]; subst.
      + apply pat_none. symmetry in E. apply map_nil_iff in E. now apply (field_nil xbrli) in E.
      + symmetry in E. apply map_cons_iff in E as (p0&r'&E&->&_).
        assert (F : first_child xbrli "period" x p0) by (apply field_first; eauto).
        assert (RP : reach p0) by (eapply child_reach; eauto; [apply reach_x|discriminate]).
        cbn [read_period pe_instant pe_start pe_end] in *.
        apply text_of_iff in I; try inlist.
        destruct (proj1 (first_text_iff p0 "startDate" (etext sv) RP ltac:(inlist) ltac:(inlist))) as (z&Fz&Vz); [eauto|].
        destruct (proj1 (first_text_iff p0 "endDate" (etext nv) RP ltac:(inlist) ltac:(inlist))) as (z'&Fz'&Vz'); [eauto|].
        eapply pat_duration; eauto.
      + symmetry in E. apply map_cons_iff in E as (p0&r'&E&->&_).
        assert (F : first_child xbrli "period" x p0) by (apply field_first; eauto).
        assert (RP : reach p0) by (eapply child_reach; eauto; [apply reach_x|discriminate]).
        cbn [read_period pe_instant pe_start pe_end] in *.
        apply text_of_iff in I; try inlist.
        eapply pat_instant; eauto. destruct D as [D|D]; [left|right]; apply no_text_iff in D; auto; inlist.
    - intro H. inversion H as [N|p i' sv nv st en F I S N V V'|p i' F I D]; subst.
      + apply (field_nil xbrli) in N; auto. rewrite N. constructor.
      + assert (RP : reach p) by (eapply child_reach; eauto; [apply reach_x|discriminate]).
        apply (field_first xbrli "period" x p O) in F as (r&F). rewrite F. simpl.
        apply text_of_iff in I; auto; try inlist.
        destruct (proj2 (first_text_iff p "startDate" s RP ltac:(inlist) ltac:(inlist))) as (a&ra&E1&<-); [eauto|].
        destruct (proj2 (first_text_iff p "endDate" e RP ltac:(inlist) ltac:(inlist))) as (b&rb&E2&<-); [eauto|].
        eapply per_duration; cbn [read_period pe_instant pe_start pe_end]; eauto.
      + assert (RP : reach p) by (eapply child_reach; eauto; [apply reach_x|discriminate]).
        apply (field_first xbrli "period" x p O) in F as (r&F). rewrite F. simpl.
        apply text_of_iff in I; auto; try inlist.
        apply per_instant; cbn [read_period pe_instant pe_start pe_end]; auto.
        destruct D as [D|D]; [left|right]; apply no_text_iff; auto; inlist.
  Qed.

  Lemma context_iff c : locally_named "context" x ->
    (is_context q scope content (read_context x) c <-> context_at q content scope x c).
  Proof.
    intros LX. assert (RX := reach_x).
    assert (NX : no_decl (attributes x)) by (apply decl_ok; auto).
    assert (OE : only_in xbrli "entity" x) by (apply only_xbrli; auto; inlist).
    split.
    - intros [N I (en&ens&idt&idts&E&E2&NE&EI&SC&SG) P S]. cbn [read_context cx_name cx_attrs cx_entity cx_period cx_scenario] in *.
      split; auto.
      + destruct LX as (s&a&i&ks&->). simpl in N. subst. now exists a, i, ks.
      + apply map_cons_iff in E as (e0&r'&E&->&_). cbn [read_entity en_identifier en_segment] in *.
        assert (F : first_child xbrli "entity" x e0) by (apply field_first; eauto).
        assert (RE : reach e0) by (eapply child_reach; eauto; discriminate).
        apply map_cons_iff in E2 as (i0&r2&E2&->&_).
        assert (OI : only_in xbrli "identifier" e0) by (apply only_xbrli; auto; inlist).
        assert (FI : first_child xbrli "identifier" e0 i0) by (apply field_first; eauto).
        exists e0, i0. split; auto. split; auto. split.
        { destruct (first_child_In _ _ _ _ FI) as [Hi Ni]. rewrite EI.
          apply (value_text i0 "identifier" xbrli); auto; [right; eapply reach_kid; eauto|inlist]. }
        split; [now rewrite EI|]. split; auto.
        rewrite app_assoc. apply members_iff; auto; [inlist|]. apply no_decl_app; auto. apply decl_ok, reach_ok; auto.
      + now apply period_iff.
      + apply members_iff; auto; inlist.
    - intros [N I (en&idt&F&FI&V&NE&SC&SG) P S]. split; cbn [read_context cx_name cx_attrs cx_entity cx_period cx_scenario]; auto.
      + destruct N as (a&i&ks&->). reflexivity.
      + assert (RE : reach en) by (eapply child_reach; eauto; discriminate).
        assert (OI : only_in xbrli "identifier" en) by (apply only_xbrli; auto; inlist).
        destruct (first_child_In _ _ _ _ FI) as [Hi Ni].
        apply (value_text idt "identifier" xbrli) in V; auto; [|right; eapply reach_kid; eauto|inlist].
        apply (field_first xbrli "entity" x en OE) in F as (r&F).
        apply (field_first xbrli "identifier" en idt OI) in FI as (r'&FI).
        exists (read_entity en), (map read_entity r), (with_text idt), (map with_text r'). rewrite F.
        split; auto. split; [simpl; now rewrite FI|]. cbn [with_text etext eattrs].
        split; [congruence|]. split; auto. split; auto. cbn [read_entity en_segment].
        rewrite app_assoc in SG. apply members_iff in SG; auto; [inlist|]. apply no_decl_app; auto. apply decl_ok, reach_ok; auto.
      + now apply period_iff.
      + apply members_iff in S; auto; inlist.
  Qed.

  Lemma measure_iff y m pre : reach y -> no_decl pre ->
    forall z, In z (kids y) -> named xbrli "measure" z ->
      (is_measure scope (with_text z) m <-> measure_at (pre ++ scope) z m).
  Proof.
    intros R NP z Hz N. unfold is_measure, measure_at. cbn [with_text etext].
    assert (NZ : near x z) by (eapply reach_kid; eauto).
    assert (ND : no_decl (attributes z ++ pre)) by (apply no_decl_app; auto; apply decl_ok; auto).
    rewrite app_assoc. rewrite (resolves_skip _ scope) by auto.
    rewrite (value_text z "measure" xbrli) by (auto; inlist).
    split; intros [A B]; split; auto; congruence.
  Qed.
  Lemma unit_iff u : locally_named "unit" x -> (is_unit scope (read_unit x) u <-> unit_at scope x u).
  Proof.
    intros LX. assert (RX := reach_x).
    assert (NX : no_decl (attributes x)) by (apply decl_ok; auto).
    assert (OM : forall y, reach y -> only_in xbrli "measure" y) by (intros; apply only_xbrli; auto; inlist).
    assert (OD : only_in xbrli "divide" x) by (apply only_xbrli; auto; inlist).
    unfold is_unit, unit_at. cbn [read_unit un_name un_attrs un_measure un_divide]. split.
    - intros (N&I&B). split.
      { destruct LX as (s&a&i&ks&->). simpl in N. subst. now exists a, i, ks. }
      split; auto. destruct B as [(m&r&E&M&Z1&Z2)|(d&r&num&rn&nums&den&rd&dens&E&ED&EN&EDn&M1&M2&Z)].
      + left. apply map_cons_iff in E as (m0&r'&E&->&_).
        assert (F : first_child xbrli "measure" x m0) by (apply field_first; eauto).
        destruct (first_child_In _ _ _ _ F) as [Hm Nm].
        exists m0. split; auto. split; auto. now apply (measure_iff x).
      + right. apply map_nil_iff in E. apply (field_nil xbrli) in E; auto.
        apply map_cons_iff in ED as (d0&r'&ED&->&_). cbn [read_divide dv_num dv_den] in *.
        assert (F : first_child xbrli "divide" x d0) by (apply field_first; eauto).
        assert (RD : reach d0) by (eapply child_reach; eauto; discriminate).
        assert (ON : only_in xbrli "unitNumerator" d0) by (apply only_xbrli; auto; inlist).
        assert (OD' : only_in xbrli "unitDenominator" d0) by (apply only_xbrli; auto; inlist).
        apply map_cons_iff in EN as (n0&rn'&EN&Q&_). symmetry in Q. apply map_cons_iff in Q as (m0&q0&Q&->&_).
        apply map_cons_iff in EDn as (n1&rn1&EDn&Q1&_). symmetry in Q1. apply map_cons_iff in Q1 as (m1&q1&Q1&->&_).
        assert (F1 : first_child xbrli "unitNumerator" d0 n0) by (apply field_first; eauto).
        assert (F2 : first_child xbrli "unitDenominator" d0 n1) by (apply field_first; eauto).
        assert (R1 : reach n0) by (apply (child_reach xbrli "unitNumerator" d0); auto; discriminate).
        assert (R2 : reach n1) by (apply (child_reach xbrli "unitDenominator" d0); auto; discriminate).
        assert (F3 : first_child xbrli "measure" n0 m0) by (apply field_first; eauto).
        assert (F4 : first_child xbrli "measure" n1 m1) by (apply field_first; eauto).
        destruct (first_child_In _ _ _ _ F3) as [H3 N3]. destruct (first_child_In _ _ _ _ F4) as [H4 N4].
        exists d0, n0, m0, n1, m1. do 6 (split; [auto|]). split; [|split; auto].
        * rewrite 2 app_assoc. apply (measure_iff n0); auto.
          repeat apply no_decl_app; auto; apply decl_ok, reach_ok; auto.
        * rewrite 2 app_assoc. apply (measure_iff n1); auto.
          repeat apply no_decl_app; auto; apply decl_ok, reach_ok; auto.
    - intros (N&I&B). split; [destruct N as (a&i&ks&->); reflexivity|]. split; auto.
      destruct B as [(m&F&M&Z1&Z2)|(d&n&m&n'&m'&NM&F&F1&F3&F2&F4&M1&M2&Z)].
      + left. destruct (first_child_In _ _ _ _ F) as [Hm Nm].
        apply (field_first xbrli "measure" x m (OM x RX)) in F as (r&F).
        exists (with_text m), (map with_text r). rewrite F. split; auto. split; auto.
        now apply (measure_iff x) in M.
      + right. assert (RD : reach d) by (eapply child_reach; eauto; discriminate).
        assert (ON : only_in xbrli "unitNumerator" d) by (apply only_xbrli; auto; inlist).
        assert (OD' : only_in xbrli "unitDenominator" d) by (apply only_xbrli; auto; inlist).
        assert (R1 : reach n) by (apply (child_reach xbrli "unitNumerator" d); auto; discriminate).
        assert (R2 : reach n') by (apply (child_reach xbrli "unitDenominator" d); auto; discriminate).
        destruct (first_child_In _ _ _ _ F3) as [H3 N3]. destruct (first_child_In _ _ _ _ F4) as [H4 N4].
        apply (field_nil xbrli "measure" x (OM x RX)) in NM.
        apply (field_first xbrli "divide" x d OD) in F as (r&F).
        apply (field_first xbrli "unitNumerator" d n ON) in F1 as (r1&F1).
        apply (field_first xbrli "unitDenominator" d n' OD') in F2 as (r2&F2).
        apply (field_first xbrli "measure" n m (OM n R1)) in F3 as (r3&F3).
        apply (field_first xbrli "measure" n' m' (OM n' R2)) in F4 as (r4&F4).
        exists (read_divide d), (map read_divide r), (with_text m), (map with_text r3).
        exists (map (fun n => map with_text (field "measure" n)) r1), (with_text m'), (map with_text r4).
        exists (map (fun n => map with_text (field "measure" n)) r2).
        rewrite NM, F. split; auto. split; auto.
        cbn [read_divide dv_num dv_den]. rewrite F1, F2. cbn [map]. rewrite F3, F4. split; auto. split; auto.
        rewrite 2 app_assoc in M1, M2. split; [|split; auto].
        * apply (measure_iff n) in M1; auto. repeat apply no_decl_app; auto; apply decl_ok, reach_ok; auto.
        * apply (measure_iff n') in M2; auto. repeat apply no_decl_app; auto; apply decl_ok, reach_ok; auto.
  Qed.
End Conforming.

(** ** Schemas *)
Lemma optional_qname_skip l scope attrs n v : no_decl l ->
  (optional_qname (l ++ scope) attrs n v <-> optional_qname scope attrs n v).
Proof.
  intro N. unfold optional_qname. split; (intros [(t&R&S)|H]; [left; exists t; split; auto|right; auto]).
  - now apply (resolves_skip l).
  - now apply (resolves_skip l).
Qed.
Lemma concept_iff root file x c : (named xsd_ns "element" x -> no_decl (attributes x)) ->
  (has_tag "element" x = true /\ declares_concept (schema_struct root) file (with_text x) c <-> concept_at root file x c).
Proof.
  intro ND. split.
  - intros [T [D1 D2 D3 D4 (t&D5&D5') D6 D7 D8 D9 D10 D11]]. cbn [with_text ename eattrs schema_struct sf_attrs] in *.
    assert (N : named xsd_ns "element" x).
    { apply has_tag_iff in T as (s&a&i&ks&->). simpl in D1. subst. now exists a, i, ks. }
    specialize (ND N). split; auto.
    + exists t. split; auto. now apply resolves_skip.
    + now apply optional_qname_skip.
  - intros [N D2 D3 D4 (t&D5&D5') D6 D7 D8 D9 D10 D11]. specialize (ND N). split.
    + apply has_tag_iff. now exists xsd_ns.
    + split; cbn [with_text ename eattrs schema_struct sf_attrs]; auto.
      * destruct N as (a&i&ks&->). reflexivity.
      * exists t. split; auto. now apply (resolves_skip (attributes x)).
      * now apply (optional_qname_skip (attributes x)).
Qed.

(** ** Linkbases *)
Lemma bare_at {B} s l (R : elem -> B -> Prop) y b : named s l y /\ R (bare y) b <-> at_elem s l R y b.
Proof.
  split.
  - intros [(a&i&ks&->) H]. now exists a, i, ks.
  - intros (a&i&ks&->&H). split; [now exists a, i, ks|auto].
Qed.
Lemma bare_image {B} s l (R : elem -> B -> Prop) x l' : only_in s l x ->
  (image_of R (map bare (field l x)) l' <-> image_of (at_elem s l R) (kids x) l').
Proof.
  intro O. etransitivity; [apply (field_image s l x bare R l' O)|]. apply image_ext_iff. intros. apply bare_at.
Qed.
Lemma role_refs_image x l :
  image_of is_role_ref (map bare (field "roleRef" x)) l <-> image_of (at_elem link_ns "roleRef" is_role_ref) (kids x) l.
Proof.
  unfold field. etransitivity; [apply image_map_filter_iff|]. apply image_ext_iff. intros y z Hy. rewrite <- bare_at. split.
  - intros [T R]. split; auto. apply has_tag_iff in T as (s&a&i&ks&->). destruct R as [N _]. cbn in N. subst s. now exists a, i, ks.
  - intros [N R]. split; auto. apply has_tag_iff. now exists link_ns.
Qed.
Lemma link_iff {arc} link_name arc_name (is_a : elem -> arc -> Prop) x l :
  only_in link_ns "loc" x -> only_in link_ns arc_name x ->
  (named link_ns link_name x /\ is_link is_a (read_link arc_name x) l <-> link_at link_name arc_name is_a x l).
Proof.
  intros O1 O2. unfold link_at. split.
  - intros [N [T R L A]]. cbn [read_link le_attrs le_loc le_arc] in *. split; auto. split; auto. split; auto.
    split; [now apply (bare_image link_ns) in L|now apply (bare_image link_ns) in A].
  - intros (N&T&R&L&A). split; auto. split; cbn [read_link le_attrs le_loc le_arc]; auto.
    + now apply (bare_image link_ns).
    + now apply (bare_image link_ns).
Qed.
Lemma links_image {arc} link_name arc_name (is_a : elem -> arc -> Prop) root links :
  own_links root link_name ["loc"; arc_name] ->
  image_of (is_link is_a) (map (read_link arc_name) (field link_name root)) links ->
  image_of (link_at link_name arc_name is_a) (kids root) links.
Proof.
  intros O H. assert (OR : only_in link_ns link_name root) by (intros y s Hy N; apply (O y s Hy N)).
  apply (field_image link_ns) in H; auto. revert H. apply image_ext. intros x l Hx.
  assert (K : named link_ns link_name x -> only_in link_ns "loc" x /\ only_in link_ns arc_name x).
  { intro N. split; intros y s Hy Ny; eapply (proj2 (O x _ Hx N)); eauto; simpl; auto. }
  split.
  - intros [N I]. destruct (K N). now apply link_iff.
  - intro L. destruct (K (proj1 L)). now apply link_iff.
Qed.
Lemma label_iff x l : (named link_ns "label" x -> forall k, In k (kids x) -> exists t, k = XmlText t) ->
  (named link_ns "label" x /\ is_label (with_text x) l <-> label_at x l).
Proof.
  intro P. assert (V : named link_ns "label" x -> string_value x = chardata x).
  { intro N. apply plain_value; auto. destruct N as (a&i&ks&->). unfold element; eauto. }
  split.
  - intros [N [A B C D]]. cbn [with_text eattrs etext] in *. split; auto. now rewrite V.
  - intros [N A B C D]. split; auto. split; cbn [with_text eattrs etext]; auto. now rewrite <- V.
Qed.
Lemma eq_image {A B} (R : A -> B -> Prop) (f : A -> B) (P : A -> Prop) l arcs :
  image_of (fun y e => P y /\ f y = e) l arcs -> forall arcs', image_of (fun y e => P y /\ f y = e) l arcs' -> arcs = arcs'.
Proof.
  intros H arcs' H'. eapply image_of_fun; [|exact H|exact H']. intros x y z [_ <-] [_ <-]. reflexivity.
Qed.
Lemma map_image {A B} (f : A -> B) (P : A -> bool) l : image_of eq (map f (filter P l)) (map f (filter P l)).
Proof. induction (map f (filter P l)); constructor; auto. Qed.
Lemma label_link_iff pf x l : (forall y k, In y (kids x) -> locally_named "label" y -> In k (kids y) -> exists t, k = XmlText t) ->
  only_in link_ns "loc" x -> only_in link_ns "label" x -> only_in link_ns "labelArc" x ->
  (named link_ns "labelLink" x /\ is_label_link pf (read_label_link x) l <-> label_link_at pf x l).
Proof.
  intros P O1 O2 O3. unfold label_link_at.
  assert (L : forall l', image_of is_label (map with_text (field "label" x)) l' <-> image_of label_at (kids x) l').
  { intro l'. etransitivity; [apply (field_image link_ns "label" x with_text is_label l' O2)|]. apply image_ext_iff. intros y z Hy. apply label_iff.
    intros N k. apply P; auto. now exists link_ns. }
  assert (AE : image_of (at_elem link_ns "labelArc" eq) (kids x) (map bare (field "labelArc" x))).
  { apply (bare_image link_ns); auto. unfold field. apply map_image. }
  split.
  - intros [N [T R LL LB A]]. cbn [read_label_link le_attrs le_loc le_arc le_labels] in *.
    split; auto. split; auto. split; auto. split; [now apply (bare_image link_ns) in LL|]. split; [now apply L|].
    exists (map bare (field "labelArc" x)). auto.
  - intros (N&T&R&LL&LB&arcs&EA&A). split; auto.
    assert (arcs = map bare (field "labelArc" x)) as ->.
    { eapply image_of_fun; [|exact EA|exact AE]. intros y a b (a1&i1&k1&->&<-) (a2&i2&k2&E&<-). now injection E; intros; subst. }
    split; cbn [read_label_link le_attrs le_loc le_arc le_labels]; auto.
    + now apply (bare_image link_ns).
    + now apply L.
Qed.

(** ** The registry of units *)
Lemma field_first_local l (x y : tree) : (exists r, field l x = y :: r) <-> first_local l x y.
Proof.
  unfold field, first_local. rewrite filter_first. apply first_such_ext. intros. apply has_tag_iff.
Qed.
Lemma field_nil_local l (x : tree) : field l x = [] <-> forall y, In y (kids x) -> ~ locally_named l y.
Proof.
  unfold field. rewrite filter_nil. split; intros H y Hy N; apply (H y Hy); now apply has_tag_iff.
Qed.
Lemma texts_field l x t : text_of (map with_text (field l x)) t <-> text_field l x t.
Proof.
  unfold text_of, text_field. split.
  - intros [(e&r&E&->)|[E ->]].
    + left. apply map_cons_iff in E as (y&r'&E&->&_). exists y. split; [apply field_first_local; eauto|apply chardata_direct].
    + right. split; auto. apply map_nil_iff in E. now apply field_nil_local.
  - intros [(y&F&->)|[N ->]].
    + left. apply field_first_local in F as (r&F). exists (with_text y), (map with_text r). rewrite F. split; auto.
      symmetry. apply chardata_direct.
    + right. split; auto. apply map_nil_iff. now apply field_nil_local.
Qed.
Lemma raws_field l x t : text_of (map with_inner (field l x)) t <-> raw_field l x t.
Proof.
  unfold text_of, raw_field. split.
  - intros [(e&r&E&->)|[E ->]].
    + left. apply map_cons_iff in E as (y&r'&E&->&_). exists y. split; [apply field_first_local; eauto|reflexivity].
    + right. split; auto. apply map_nil_iff in E. now apply field_nil_local.
  - intros [(y&F&->)|[N ->]].
    + left. apply field_first_local in F as (r&F). exists (with_inner y), (map with_inner r). rewrite F. split; auto.
    + right. split; auto. apply map_nil_iff. now apply field_nil_local.
Qed.
Lemma mandatory_text l t : t <> "" -> ((exists e r, l = e :: r /\ etext e = t /\ t <> "") <-> text_of l t).
Proof.
  intro N. unfold text_of. split.
  - intros (e&r&->&<-&_). left. eauto.
  - intros [(e&r&->&->)|[_ ->]]; [eauto|contradiction].
Qed.
Lemma mandatory_ne l t : (exists e r, l = e :: r /\ etext e = t /\ t <> "") -> t <> "".
Proof. now intros (?&?&_&_&?). Qed.
Lemma measurement_iff (x : tree) m : locally_named "unit" x -> (is_measurement (read_utr_unit x) m <-> measurement_at x m).
Proof.
  intro U. split.
  - intros []. unfold read_utr_unit in *. cbn [uUnitID uUnitName uNSUnit uItemType uNSItemType uItemTypeDate uSymbol uDefinition
      uBaseStandard uConversionPresentation uConversionContent uStatus uVersionDate uNumeratorItemType uNSNumeratorItemType
      uDenominatorItemType uNSDenominatorItemType] in *.
    assert (N1 := mandatory_ne _ _ im_id). assert (N2 := mandatory_ne _ _ im_name). assert (N3 := mandatory_ne _ _ im_ns).
    apply mandatory_text in im_id; auto. apply mandatory_text in im_name; auto. apply mandatory_text in im_ns; auto.
    split; auto.
    + intros l p H. simpl in H. repeat destruct H as [H|H]; try contradiction; injection H; intros <- <-; now apply texts_field.
    + intros l p H. simpl in H. repeat destruct H as [H|H]; try contradiction; injection H; intros <- <-; now apply raws_field.
  - intros [_ (N1&N2&N3) T R]. unfold read_utr_unit.
    split; cbn [uUnitID uUnitName uNSUnit uItemType uNSItemType uItemTypeDate uSymbol uDefinition
      uBaseStandard uConversionPresentation uConversionContent uStatus uVersionDate uNumeratorItemType uNSNumeratorItemType
      uDenominatorItemType uNSDenominatorItemType];
      [apply (mandatory_text _ _ N1)|apply (mandatory_text _ _ N2)|apply (mandatory_text _ _ N3)|..];
      (apply texts_field; apply T; simpl; auto 20) || (apply raws_field; apply R; simpl; auto 20).
Qed.

(** ** Inline documents *)
Section XmlInd.
  Context {A : Type} (P : xml A -> Prop).
  Hypothesis HT : forall s, P (XmlText s).
  Hypothesis HE : forall n a i ks, (forall k, In k ks -> P k) -> P (XmlElem n a i ks).
  Fixpoint xml_nested_ind (x : xml A) : P x :=
    match x with
    | XmlText s => HT s
    | XmlElem n a i ks => HE n a i ks
        ((fix go l : forall k, In k l -> P k :=
           match l with
           | [] => fun k H => match H with end
           | y :: t => fun k H => match H with or_introl e => eq_ind y P (xml_nested_ind y) k e | or_intror H => go t k H end
           end) ks)
    end.
End XmlInd.

Lemma image_app {A B} (R : A -> B -> Prop) l1 l2 m1 m2 : image_of R l1 m1 -> image_of R l2 m2 -> image_of R (l1 ++ l2) (m1 ++ m2).
Proof. intros H H'. induction H; simpl; auto; [now apply image_keep|now apply image_skip]. Qed.
Lemma image_flat_map {A B C} (R : B -> C -> Prop) (f : A -> list B) (g : A -> list C) l :
  (forall x, In x l -> image_of R (f x) (g x)) -> image_of R (flat_map f l) (flat_map g l).
Proof.
  induction l as [|x l IH]; simpl; intro H; [constructor|]. apply image_app; [apply H; auto|]. apply IH. intros; apply H; auto.
Qed.

Section Queries.
  Context {A : Type}.
  Fixpoint rsub (above : list (xml A)) (ps : list (xml A -> bool)) {struct above} : Prop :=
    match ps with
    | [] => True
    | p :: r => match above with
                | [] => False
                | y :: ab => (p y = true /\ rsub ab r) \/ rsub ab ps
                end
    end.
  Lemma rsub_nil above : rsub above []. Proof. destruct above; exact I. Qed.
  Lemma rsub_cons_up y above ps : rsub above ps -> rsub (y :: above) ps.
  Proof. destruct ps; simpl; auto. Qed.
  Lemma rsub_tail above p ps : rsub above (p :: ps) -> rsub above ps.
  Proof.
    revert p ps. induction above as [|y ab IH]; simpl; intros p ps; [tauto|]. destruct ps as [|p' r]; auto.
    intros [[_ H]|H]; [right; auto|]. right. eapply IH; eauto.
  Qed.
  Lemma rsub_suffix above a b : rsub above (a ++ b) -> rsub above b.
  Proof. induction a; simpl; auto. intro H. apply rsub_tail in H. auto. Qed.
End Queries.

Definition hit (ps : list (qtree -> bool)) (ax : list qtree * qtree) : Prop :=
  exists pre q, ps = (pre ++ [q])%list /\ q (snd ax) = true /\ rsub (fst ax) (rev pre).
Lemma query_all_walk full x :
  forall above pre rest, full = (pre ++ rest)%list -> rest <> [] ->
    rsub above (rev pre) ->
    (forall p r, rest = p :: r -> r <> [] -> ~ rsub above (p :: rev pre)) ->
    image_of (fun ax y => hit full ax /\ y = snd ax) (walk above x) (query_all rest x).
Proof.
  induction x as [s|n a i ks IH] using xml_nested_ind; intros above pre rest E NE S G; [constructor|].
  destruct rest as [|p [|p2 r]]; [contradiction| |].
  - cbn [walk query_all]. set (x := XmlElem n a i ks) in *.
    assert (K : image_of (fun ax y => hit full ax /\ y = snd ax) (flat_map (walk (x :: above)) ks) (flat_map (query_all [p]) ks)).
    { apply image_flat_map. intros k Hk. apply (IH k Hk (x :: above) pre [p]); auto.
      - now apply rsub_cons_up.
      - intros p0 r0 E0 N0. injection E0; intros; subst. contradiction. }
    destruct (p x) eqn:Px; simpl.
    + apply image_keep; auto. split; auto. exists pre, p. auto.
    + apply image_skip; auto. intros y [(pre'&q0&E'&Q&_) _]. rewrite E in E'. apply app_inj_tail in E' as [_ <-].
      simpl in Q. congruence.
  - assert (GP : ~ rsub above (p :: rev pre)) by (apply (G p (p2 :: r)); [auto|discriminate]).
    cbn [walk query_all]. set (x := XmlElem n a i ks) in *. apply image_skip.
    + intros y [(pre'&q0&E'&Q&S') _]. apply GP. simpl in S'.
      assert (exists m, rev pre' = (m ++ p :: rev pre)%list) as [m M].
      { rewrite E in E'.
        destruct (exists_last (l := p2 :: r)) as (r'&q1&L); [discriminate|].
        assert (E2 : ((pre ++ p :: r') ++ [q1] = pre' ++ [q0])%list).
        { rewrite <- E', L. rewrite <- app_assoc. reflexivity. }
        apply app_inj_tail in E2 as [<- _]. exists (rev r'). rewrite rev_app_distr. simpl. now rewrite <- app_assoc. }
      rewrite M in S'. now apply rsub_suffix in S'.
    + apply image_flat_map. intros k Hk. destruct (p x) eqn:Px.
      * apply (IH k Hk (x :: above) (pre ++ [p])%list (p2 :: r)).
        -- rewrite E, <- app_assoc. reflexivity.
        -- discriminate.
        -- rewrite rev_app_distr. simpl. left. auto.
        -- intros p0 r0 E0 N0. injection E0; intros E1 E2; subst p0 r0. rewrite rev_app_distr. simpl.
           intros [[_ H]|H]; [auto|]. apply rsub_tail in H. auto.
      * apply (IH k Hk (x :: above) pre (p :: p2 :: r)); auto.
        -- now apply rsub_cons_up.
        -- intros p0 r0 E0 N0. injection E0; intros E1 E2; subst p0 r0. simpl. intros [[H _]|H]; [congruence|auto].
Qed.
Lemma query_all_hits ps d : ps <> [] ->
  image_of (fun ax y => hit ps ax /\ y = snd ax) (walk [] d) (query_all ps d).
Proof.
  intro N. apply (query_all_walk ps d [] [] ps); simpl; auto.
Qed.

Definition step (sl : string * string) : qtree -> bool := name_is (snd sl) (fst sl).
Lemma name_is_iff s l (x : qtree) : name_is l s x = true <-> named s l x.
Proof.
  unfold name_is. rewrite andb_true_iff, has_tag_iff, String.eqb_eq. split.
  - intros [(s'&a&i&ks&->) E]. simpl in E. subst. now exists a, i, ks.
  - intros (a&i&ks&->). split; [exists s, a, i, ks; auto|reflexivity].
Qed.
Lemma rsub_located pre above : pre <> [] ->
  (rsub above (rev (map step pre)) <-> exists far y above', above = (far ++ y :: above')%list /\ located pre above' y).
Proof.
  revert above. induction pre as [|[s l] pre IH] using rev_ind; intros above N; [contradiction|].
  rewrite map_app, rev_app_distr. cbn [map rev app]. clear N.
  assert (L : forall above' y, located (pre ++ [(s, l)]) above' y <-> named s l y /\ rsub above' (rev (map step pre))).
  { intros above' y. split.
    - intro H. inversion H as [s0 l0 ab x0 N0 E|path s0 l0 ab y0 ab' far x0 EA L NE N0 E].
      + subst. destruct pre as [|? pre]; [|destruct pre; discriminate]. inversion E; subst.
        split; auto. apply rsub_nil.
      + subst x0 ab. apply app_inj_tail in E as [<- E]. injection E; intros; subst. split; auto. apply IH; eauto.
    - intros [N R]. destruct pre as [|a pre'].
      + apply loc_here; auto.
      + apply IH in R as (far&y0&ab'&E&L); [|discriminate]. eapply loc_below; eauto. discriminate. }
  induction above as [|y ab IHa]; cbn [rsub].
  - split; [tauto|]. intros (far&y0&ab'&E&_). destruct far; discriminate.
  - split.
    + intros [[H R]|H].
      * exists [], y, ab. split; auto. apply L. split; auto. now apply name_is_iff in H.
      * apply IHa in H as (far&y0&ab'&->&H). exists (y :: far), y0, ab'. auto.
    + intros (far&y0&ab'&E&H). destruct far as [|z far]; injection E; intros E1 E2; subst.
      * apply L in H as [H R]. left. split; auto. now apply name_is_iff.
      * right. apply IHa. eauto.
Qed.
Lemma hit_located path above x : path <> [] -> (hit (map step path) (above, x) <-> located path above x).
Proof.
  intro N. destruct (exists_last N) as (pre&[s l]&->). unfold hit. simpl. split.
  - intros (pre'&q0&E&Q&R). rewrite map_app in E. simpl in E. apply app_inj_tail in E as [<- <-].
    apply name_is_iff in Q. simpl in Q. destruct pre as [|a pre'].
    + now apply loc_here.
    + apply rsub_located in R as (far&y&ab&E&L); [|discriminate]. eapply loc_below; eauto. discriminate.
  - intro H. exists (map step pre), (step (s, l)). rewrite map_app. split; auto.
    inversion H as [s0 l0 ab x0 N0 E|pth s0 l0 ab y0 ab' far x0 EA L NE N0 E].
    + subst. destruct pre as [|? pre]; [|destruct pre; discriminate]. inversion E; subst.
      split; [now apply name_is_iff|apply rsub_nil].
    + subst x0 ab. apply app_inj_tail in E as [<- E]. injection E; intros; subst.
      split; [now apply name_is_iff|]. apply rsub_located; eauto.
Qed.
Lemma query_all_selects path d : path <> [] -> selects path d (query_all (map step path) d).
Proof.
  intro N. unfold selects. eapply image_ext; [|apply query_all_hits; destruct path; [contradiction|discriminate]].
  intros [above x] y _. cbn [fst snd]. now rewrite hit_located.
Qed.
Lemma hit_one p ax : hit [p] ax <-> p (snd ax) = true.
Proof.
  split.
  - intros (pre&q0&E&Q&_). destruct pre as [|? [|]]; try discriminate. now injection E; intros ->.
  - intro H. exists [], p. split; auto. split; auto. apply rsub_nil.
Qed.
Lemma image_head {A B} (P : A -> Prop) (f : A -> B) l out : image_of (fun x y => P x /\ y = f x) l out ->
  (forall h, hd_error out = Some h <-> exists x, first_such P l x /\ h = f x) /\
  (hd_error out = None <-> forall x, In x l -> ~ P x).
Proof.
  intro H. induction H as [|x y l l' [p ->] H IH|x l l' n H [IH1 IH2]]; simpl.
  - split; [|intuition]. intro h. split; [discriminate|]. intros (x&(l1&l2&E&_)&_). destruct l1; discriminate.
  - split.
    + intro h. split.
      * intro E. injection E; intros <-. exists x. split; auto. exists [], l. simpl. intuition.
      * intros (x'&(l1&l2&E&P'&F)&->). destruct l1 as [|z l1]; injection E; intros E1 E2; subst; auto.
        exfalso. apply (F z); simpl; auto.
    + split; [discriminate|]. intro F. exfalso. apply (F x); auto.
  - assert (NP : ~ P x) by (intro p; apply (n (f x)); auto). split.
    + intro h. rewrite IH1. split; intros (x'&(l1&l2&E&P'&F)&->).
      * exists x'. split; auto. exists (x :: l1), l2. subst. split; auto. split; auto. intros z [<-|Hz]; auto.
      * destruct l1 as [|z l1]; injection E; intros E1 E2; subst; [contradiction|].
        exists x'. split; auto. exists l1, l2. split; auto. split; auto. intros w Hw. apply F. simpl; auto.
    + rewrite IH2. split; intros F z Hz; [destruct Hz as [<-|Hz]; auto|auto].
Qed.

(** ** Concrete documents *)
Fixpoint nodes {A} (x : xml A) : list (xml A) :=
  match x with XmlText _ => [x] | XmlElem _ _ _ ks => x :: flat_map nodes ks end.
Lemma nodes_self {A} (x : xml A) : In x (nodes x). Proof. destruct x; simpl; auto. Qed.
Lemma nodes_kid {A} (x y z : xml A) : In y (nodes x) -> In z (kids y) -> In z (nodes x).
Proof.
  induction x as [s|n a i ks IH] using xml_nested_ind; simpl.
  - intros [<-|[]] [].
  - intros [<-|H] Hz.
    + right. apply in_flat_map. exists z. split; auto. apply nodes_self.
    + right. apply in_flat_map in H as (k&Hk&H). apply in_flat_map. exists k. split; [auto|]. eapply IH; eauto.
Qed.
Lemma near_nodes x y : near x y -> In y (nodes x).
Proof. induction 1 as [y H|y z N IH T H]; [apply (nodes_kid x x); [apply nodes_self|exact H]|eapply nodes_kid; eauto]. Qed.
Lemma nodes_trans {A} (x y z : xml A) : In y (nodes x) -> In z (nodes y) -> In z (nodes x).
Proof.
  revert z. induction x as [s|n a i ks IH] using xml_nested_ind; intros z; simpl.
  - intros [<-|[]] H. auto.
  - intros [<-|H] Hz; [exact Hz|]. right. apply in_flat_map in H as (k&Hk&H). apply in_flat_map. exists k. split; [auto|].
    eapply IH; eauto.
Qed.
Lemma in_context_nodes root y : in_context_or_unit root y -> In y (flat_map nodes (kids root)).
Proof.
  intros (x&Hx&_&R). apply in_flat_map. exists x. split; [exact Hx|].
  destruct R as [->|R]; [apply nodes_self|now apply near_nodes].
Qed.

(** ** Facts of inline documents *)
Lemma walk_chain {A} (d : xml A) : forall above ab x, In (ab, x) (walk above d) ->
  exists pre, x :: ab = (pre ++ d :: above)%list /\ forall y, In y pre -> exists z ab', In (z :: ab', y) (walk above d).
Proof.
  induction d as [s|n a i ks IH] using xml_nested_ind; intros above ab x H; simpl in H; [contradiction|].
  set (d := XmlElem n a i ks) in *. destruct H as [H|H].
  - injection H; intros <- <-. exists []. split; auto. intros y [].
  - apply in_flat_map in H as (k&Hk&H). destruct (IH k Hk _ _ _ H) as (pre&E&P).
    exists (pre ++ [k])%list. rewrite <- app_assoc. split; auto.
    assert (W : forall p, In p (walk (d :: above) k) -> In p (walk above d)).
    { intros p Hp. unfold d. simpl. right. apply in_flat_map. exists k. split; auto. }
    intros y Hy. apply in_app_or in Hy as [Hy|[<-|[]]].
    + destruct (P y Hy) as (z&ab'&Q). exists z, ab'. auto.
    + destruct k as [s|nk ak ik kk].
      * simpl in H. contradiction.
      * exists d, above. apply W. simpl. auto.
Qed.
Lemma walk_root {A} (d : xml A) : element d -> In ([], d) (walk [] d).
Proof. intros (n&a&i&ks&->). simpl. auto. Qed.
Lemma no_qdecl l p v : (forall a, In a l -> quri a <> "xmlns") -> ~ declares l p v.
Proof.
  intros N (a&(l1&l2&E&[Q _]&_)&_). apply (N a); auto. subst. apply in_or_app. simpl; auto.
Qed.
Lemma bound_at_root d above x p v : declared_at_html d -> In (above, x) (walk [] d) ->
  (bound_at (x :: above) p v <-> declares (attributes d) p v).
Proof.
  intros [_ N] H. destruct (walk_chain d _ _ _ H) as (pre&->&P).
  assert (NP : forall y, In y pre -> ~ exists w, declares (attributes y) p w).
  { intros y Hy [w D]. destruct (P y Hy) as (z&ab'&Q). revert D. apply no_qdecl. intros a. eapply N; eauto. }
  split.
  - intros (y&F&D). apply (first_such_skip _ pre [d] y NP) in F. apply first_such_In in F as [[<-|[]] _]. auto.
  - intro D. exists d. split; auto. apply (first_such_skip _ pre [d] d NP). exists [], []. split; auto. split; [eauto|]. intros ? [].
Qed.
Lemma inline_at_root d above x k n c : declared_at_html d -> In (above, x) (walk [] d) ->
  (inline_fact_at above x k n c <-> inline_fact (attributes d) (attributes x) k n c).
Proof.
  intros D H. unfold inline_fact_at, inline_fact. split.
  - intros (A&B&p&l&v&E&F&G&I). split; auto. split; auto. exists p, l, v. split; auto. split; auto. split; auto. now apply (bound_at_root d above x).
  - intros (A&B&p&l&v&E&F&G&I). split; auto. split; auto. exists p, l, v. split; auto. split; auto. split; auto. now apply (bound_at_root d above x).
Qed.
Lemma attributes_x {A} (x : xml A) : x_attrs x = attributes x. Proof. destruct x; reflexivity. Qed.
Lemma listed_iff l d node : In node (map x_attrs (query_all [name_is l IX] d)) <->
  exists above x, In (above, x) (walk [] d) /\ named ix_ns l x /\ node = attributes x.
Proof.
  pose proof (query_all_hits [name_is l IX] d ltac:(discriminate)) as I. rewrite in_map_iff. split.
  - intros (x&<-&Hx). apply (image_of_In _ _ _ _ I) in Hx as ([above y]&Hy&Hh&->). exists above, y. split; auto. simpl.
    split; [|apply attributes_x]. apply hit_one in Hh. now apply name_is_iff in Hh.
  - intros (above&x&Hx&N&->). exists x. split; [apply attributes_x|].
    eapply (image_of_In' _ _ _ (above, x) x); [|exact I|exact Hx|].
    + intros ? ? ? [_ ->] [_ ->]. reflexivity.
    + split; auto. apply hit_one. now apply name_is_iff.
Qed.
Lemma html_root d s : declared_at_html d -> decode_inline (Some d) = Some s ->
  inline_source s = DocSource (attributes d) (map x_attrs (query_all [name_is "nonNumeric" IX] d))
                                             (map x_attrs (query_all [name_is "nonFraction" IX] d)).
Proof.
  intros [(sp&a&i&ks&->) _] H. unfold decode_inline, query in H. cbn [query_all] in H.
  cbn [local_is has_tag nlocal] in H. rewrite String.eqb_refl in H. cbn [app hd_error] in H. injection H; intros <-. reflexivity.
Qed.

(** ** Role types *)
Lemma role_iff x r :
  (forall y, In y (kids x) ->
    (locally_named "definition" y \/ named link_ns "usedOn" y -> forall k, In k (kids y) -> exists t, k = XmlText t) /\
    (locally_named "definition" y -> named link_ns "definition" y)) ->
  (locally_named "roleType" x /\ declares_role (read_role_type x) r <-> role_at x r).
Proof.
  intro P.
  assert (OD : only_in link_ns "definition" x).
  { intros y s Hy N. destruct (P y Hy) as [_ Q]. destruct (Q (ex_intro _ s N)) as (a&i&ks&->).
    destruct N as (?&?&?&E). injection E; intros; subst; auto. }
  assert (V : forall y, In y (kids x) -> locally_named "definition" y \/ named link_ns "usedOn" y -> string_value y = chardata y).
  { intros y Hy L. apply plain_value; [|now apply (P y Hy)].
    destruct L as [(s&a&i&ks&->)|(a&i&ks&->)]; do 4 eexists; reflexivity. }
  assert (U : forall l, image_of (fun u s => nspace (ename u) = "http://www.xbrl.org/2003/linkbase" /\ s = etext u)
                          (map with_text (field "usedOn" x)) l <->
                        image_of (fun y s => named link_ns "usedOn" y /\ s = string_value y) (kids x) l).
  { intro l. unfold field. etransitivity; [apply image_map_filter_iff|]. apply image_ext_iff. intros y z Hy. split.
    - intros (T&N&->). apply has_tag_iff in T as (s&T). assert (named link_ns "usedOn" y) as K.
      { destruct T as (a&i&ks&->). cbn in N. subst s. now exists a, i, ks. }
      split; auto. rewrite V; auto.
    - intros (N&->). split; [apply has_tag_iff; now exists link_ns|]. rewrite V; auto.
      split; auto. destruct N as (a&i&ks&->). reflexivity. }
  split.
  - intros [L [D1 D2 D3 D4 D5]]. split; auto.
    + destruct L as (s&a&i&ks&->). cbn in D1. subst s. now exists a, i, ks.
    + cbn [read_role_type rt_definition] in D4. destruct D4 as [(d&t&E&R)|[E R]].
      * left. apply map_cons_iff in E as (y&r'&E&->&->). exists y.
        assert (F : first_child link_ns "definition" x y) by (apply field_first; eauto).
        split; auto. apply first_such_In in F as [Hy N]. rewrite V; auto. left. now exists link_ns.
      * right. apply map_nil_iff in E. split; auto. now apply field_nil.
    + now apply U.
  - intros [D1 D2 D3 D4 D5]. split; [now exists link_ns|]. split; auto.
    + destruct D1 as (a&i&ks&->). reflexivity.
    + cbn [read_role_type rt_definition]. destruct D4 as [(y&F&R)|[N R]].
      * left. pose proof F as F'. apply field_first in F as (r'&E); auto. rewrite E. cbn [map].
        do 2 eexists. split; [reflexivity|]. rewrite R. cbn. apply first_such_In in F' as [Hy N]. apply V; auto. left. now exists link_ns.
      * right. apply field_nil in N; auto. now rewrite N.
    + now apply U.
Qed.
Lemma role_at_fun x r r' : role_at x r -> role_at x r' -> r = r'.
Proof.
  intros [A1 A2 A3 A4 A5] [B1 B2 B3 B4 B5]. destruct r as [u i d us], r' as [u' i' d' us']. cbn in *.
  assert (i = i') by (eapply required_fun; eauto).
  assert (u = u') by (eapply required_fun; eauto).
  assert (d = d').
  { destruct A4 as [(y&F&->)|[N ->]], B4 as [(y'&F'&->)|[N' ->]]; auto.
    - now rewrite (first_such_unique _ _ _ _ F F').
    - exfalso. apply first_such_In in F as [Hy Ny]. exact (N' _ Hy Ny).
    - exfalso. apply first_such_In in F' as [Hy Ny]. exact (N _ Hy Ny). }
  assert (us = us').
  { eapply image_of_fun; [|exact A5|exact B5]. intros y a b [_ ->] [_ ->]. reflexivity. }
  subst. reflexivity.
Qed.
Lemma at_most_one_field {A} l (x : xml A) : at_most_one l x -> forall y, In y (field l x) -> In y (firstn 1 (field l x)).
Proof.
  unfold at_most_one, field, x_kids, kids.
  assert (G : forall ks : list (xml A), (forall l1 y l2 z l3, ks = (l1 ++ y :: l2 ++ z :: l3)%list -> locally_named l y -> ~ locally_named l z) ->
    forall y, In y (filter (has_tag l) ks) -> In y (firstn 1 (filter (has_tag l) ks))).
  { induction ks as [|k ks IH]; intros H y Hy; [destruct Hy|]. simpl in *. destruct (has_tag l k) eqn:T.
    - simpl. destruct Hy as [<-|Hy]; auto. exfalso. apply filter_In in Hy as [Hy Ty].
      apply in_split in Hy as (l2&l3&->). apply (H [] k l2 y l3 eq_refl); now apply has_tag_iff.
    - apply IH; auto. intros l1 a l2 b l3 -> La. apply (H (k :: l1) a l2 b l3 eq_refl La). }
  destruct x as [s|n a i ks]; [intros _ y []|]. intro H. apply G. exact H.
Qed.

(** ** Footnote links *)
Lemma footnote_link_iff x l :
  only_in link_ns "footnote" x -> only_in link_ns "loc" x -> only_in link_ns "footnoteArc" x ->
  (named link_ns "footnoteLink" x /\ is_footnote_link (read_fnlink x) l <-> footnote_link_at x l).
Proof.
  intros O1 O2 O3. unfold is_footnote_link, footnote_link_at. cbn [read_fnlink fl_attrs fl_footnote fl_loc fl_arc].
  assert (F : forall k, image_of is_footnote (map with_inner (field "footnote" x)) k <-> image_of footnote_at (kids x) k).
  { intro k. etransitivity; [apply (field_image link_ns "footnote" x with_inner is_footnote k O1)|].
    apply image_ext_iff. intros y z Hy. unfold footnote_at. split; intros [N R]; (split; [auto|]); destruct N as (a&i&ks&->); exact R. }
  split.
  - intros (N&T&R&Ti&A&B&C). split; auto. split; auto. split; auto. split; auto. split; [now apply F|].
    split; now apply (bare_image link_ns).
  - intros (N&T&R&Ti&A&B&C). split; auto. split; auto. split; auto. split; auto. split; [now apply F|].
    split; now apply (bare_image link_ns).
Qed.
