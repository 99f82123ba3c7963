(** * LabelProofs *)
From Verif Require Import GoBase GoSpec GoFacts LinkbaseModel LabelModel LabelSpec.
Local Open Scope string_scope.

(** ** General *)
Lemma find_rev_last {A} (f : A -> bool) l x :
  find f (rev l) = Some x <-> last_such (fun y => f y = true) l x.
Proof.
  rewrite find_first_such. split.
  - intros (l1&l2&E&P&Q). exists (rev l2), (rev l1). repeat split; auto.
    + rewrite <- (rev_involutive l), E, rev_app_distr. simpl. now rewrite <- app_assoc.
    + intros y Hy. apply in_rev in Hy. auto.
  - intros (l1&l2&->&P&Q). exists (rev l2), (rev l1). repeat split; auto.
    + rewrite rev_app_distr. simpl. now rewrite <- app_assoc.
    + intros y Hy. apply in_rev in Hy. auto.
Qed.
Lemma find_app {A} (f : A -> bool) l1 l2 :
  find f (l1 ++ l2)%list = match find f l1 with Some y => Some y | None => find f l2 end.
Proof. induction l1 as [|y l1 IH]; simpl; auto. destruct (f y); auto. Qed.
Lemma find_rev_None {A} (f : A -> bool) l : find f (rev l) = None <-> forall x, In x l -> f x = false.
Proof.
  rewrite find_None_iff. split; intros H x Hx; apply H; [now apply -> in_rev|now apply in_rev].
Qed.
Lemma last_such_iff {A} (P Q : A -> Prop) l x :
  (forall y, In y l -> (P y <-> Q y)) -> last_such P l x -> last_such Q l x.
Proof.
  intros H (l1&l2&->&Hx&Hn). exists l1, l2. repeat split; auto.
  - apply H; auto. apply in_app_iff; simpl; auto.
  - intros y Hy Qy. apply (Hn y Hy). apply H; auto. apply in_app_iff; simpl; auto.
Qed.
Lemma fold_flat_map {A B C} (g : C -> B -> C) (f : A -> list B) l p :
  fold_left (fun p x => fold_left g (f x) p) l p = fold_left g (flat_map f l) p.
Proof. revert p. induction l as [|x t IH]; intro p; simpl; auto. now rewrite fold_left_app, IH. Qed.
Lemma fold_filter {A C} (g : C -> A -> C) (b : A -> bool) l p :
  fold_left (fun p x => if b x then g p x else p) l p = fold_left g (filter b l) p.
Proof. revert p. induction l as [|x t IH]; intro p; simpl; auto. rewrite IH. now destruct (b x). Qed.
Lemma fold_map {A B C} (g : C -> B -> C) (f : A -> B) l p :
  fold_left g (map f l) p = fold_left (fun p x => g p (f x)) l p.
Proof. revert p. induction l as [|x t IH]; intro p; simpl; auto. Qed.
Lemma fold_ext {A C} (g g' : C -> A -> C) l p :
  (forall p x, g p x = g' p x) -> fold_left g l p = fold_left g' l p.
Proof. intro H. revert p. induction l as [|x t IH]; intro p; simpl; auto. now rewrite H, IH. Qed.

(** ** GetLabel *)
Definition connectsb (href : string) (p : path) : bool :=
  String.eqb (locHref (p_loc p)) href &&
  (String.eqb (laFrom (p_arc p)) (locLabel (p_loc p)) && String.eqb (laArcrole (p_arc p)) LabelArcrole &&
   String.eqb (llLabel (p_label p)) (laTo (p_arc p))).
Lemma connectsbP href p : connectsb href p = true <-> connects href p.
Proof.
  unfold connectsb, connects. rewrite !andb_true_iff, !String.eqb_eq. unfold LabelArcrole. intuition.
Qed.

Lemma modifiers_flat p labels href :
  append_label_modifiers p labels href =
  fold_left (fun p x => if connectsb href x then apply_label p (p_label x) else p) (paths labels) p.
Proof.
  unfold append_label_modifiers, paths. rewrite <- fold_flat_map. apply fold_ext; intros p1 lb.
  rewrite <- fold_flat_map. apply fold_ext; intros p2 ll.
  rewrite <- fold_flat_map. apply fold_ext; intros p3 l.
  rewrite <- fold_flat_map.
  destruct (String.eqb (locHref l) href) eqn:E1.
  - apply fold_ext; intros p4 a. rewrite fold_map.
    destruct (String.eqb (laFrom a) (locLabel l) && String.eqb (laArcrole a) LabelArcrole) eqn:E2.
    + apply fold_ext; intros p5 x. unfold connectsb. cbn [p_loc p_arc p_label]. now rewrite E1, E2.
    + induction (lnLabels ll) as [|x t IH] in p4 |- *; simpl; auto.
      unfold connectsb at 2. cbn [p_loc p_arc p_label]. rewrite E1, E2. simpl. auto.
  - induction (lnArcs ll) as [|a t IH] in p3 |- *; simpl; auto.
    rewrite fold_map.
    replace (fold_left _ (lnLabels ll) p3) with p3; auto.
    induction (lnLabels ll) as [|x t' IH'] in p3 |- *; simpl; auto.
    unfold connectsb at 2. cbn [p_loc p_arc p_label]. rewrite E1. simpl. auto.
Qed.

Definition lk (p : label_pack) (role lang : string) : option string :=
  match sget role p with Some m => sget lang m | None => None end.
Definition role_of (uri : string) : option string :=
  if String.eqb uri LabelRole then Some Default
  else if String.eqb uri TerseLabelRole then Some Terse
  else if String.eqb uri VerboseLabelRole then Some Verbose else None.
Definition lang_of (tag : string) : option string :=
  if String.eqb tag "en-US" then Some English else if String.eqb tag "es" then Some Español else None.
Lemma role_ofP uri role : role_of uri = Some role <-> api_role uri role.
Proof.
  unfold role_of, api_role, LabelRole, TerseLabelRole, VerboseLabelRole, Default, Terse, Verbose.
  destruct (String.eqb uri "http://www.xbrl.org/2003/role/label") eqn:E1; [apply String.eqb_eq in E1; subst|apply String.eqb_neq in E1].
  { split; [intro H; injection H; intros <-; simpl; auto|]. intros [H|[H|[H|[]]]]; inversion H; auto. }
  destruct (String.eqb uri "http://www.xbrl.org/2003/role/terseLabel") eqn:E2; [apply String.eqb_eq in E2; subst|apply String.eqb_neq in E2].
  { split; [intro H; injection H; intros <-; simpl; auto|]. intros [H|[H|[H|[]]]]; inversion H; auto. }
  destruct (String.eqb uri "http://www.xbrl.org/2003/role/verboseLabel") eqn:E3; [apply String.eqb_eq in E3; subst|apply String.eqb_neq in E3].
  { split; [intro H; injection H; intros <-; simpl; auto|]. intros [H|[H|[H|[]]]]; inversion H; auto. }
  split; [discriminate|]. intros [H|[H|[H|[]]]]; inversion H; congruence.
Qed.
Lemma lang_ofP tag lang : lang_of tag = Some lang <-> api_lang tag lang.
Proof.
  unfold lang_of, api_lang, English, Español.
  destruct (String.eqb tag "en-US") eqn:E1; [apply String.eqb_eq in E1; subst|apply String.eqb_neq in E1].
  { split; [intro H; injection H; intros <-; simpl; auto|]. intros [H|[H|[]]]; inversion H; auto. }
  destruct (String.eqb tag "es") eqn:E2; [apply String.eqb_eq in E2; subst|apply String.eqb_neq in E2].
  { split; [intro H; injection H; intros <-; simpl; auto|]. intros [H|[H|[]]]; inversion H; auto. }
  split; [discriminate|]. intros [H|[H|[]]]; inversion H; congruence.
Qed.

Lemma apply_label_eq p x :
  apply_label p x =
  match role_of (llRole x) with
  | None => p
  | Some role => match lang_of (llLang x) with
                 | None => ensure_role role p
                 | Some l => sset role (sset l (llCharData x) (match sget role p with Some m => m | None => [] end)) (ensure_role role p)
                 end
  end.
Proof.
  assert (G : forall role, append_language (llLang x) role (llCharData x) (ensure_role role p) =
    match lang_of (llLang x) with
    | None => ensure_role role p
    | Some l => sset role (sset l (llCharData x) (match sget role p with Some m => m | None => [] end)) (ensure_role role p)
    end).
  { intro role. unfold append_language, lang_of. cbv zeta.
    assert (E : sget role (ensure_role role p) = match sget role p with Some m => Some m | None => Some [] end).
    { unfold ensure_role. destruct (sget role p) eqn:E; [now rewrite E|].
      rewrite (mget_mset String.eqb seqP), seqb_refl. reflexivity. }
    rewrite E. destruct (String.eqb (llLang x) "en") eqn:E0.
    - apply String.eqb_eq in E0. rewrite E0. reflexivity.
    - destruct (sget role p), (String.eqb (llLang x) "en-US"); auto; destruct (String.eqb (llLang x) "es"); auto. }
  unfold apply_label, role_of.
  destruct (String.eqb (llRole x) LabelRole); [apply G|].
  destruct (String.eqb (llRole x) TerseLabelRole); [apply G|].
  destruct (String.eqb (llRole x) VerboseLabelRole); [apply G|]. reflexivity.
Qed.
Definition labelsb (role lang : string) (x : label_elem) : bool :=
  match role_of (llRole x), lang_of (llLang x) with
  | Some r, Some l => String.eqb r role && String.eqb l lang
  | _, _ => false
  end.
Lemma ensure_get role role' p :
  sget role' (ensure_role role p) = match sget role' p with Some m => Some m
    | None => if String.eqb role role' then Some [] else None end.
Proof.
  unfold ensure_role. destruct (sget role p) eqn:E.
  - destruct (sget role' p) eqn:E'; auto. destruct (String.eqb role role') eqn:Q; auto.
    apply String.eqb_eq in Q. subst. congruence.
  - rewrite (mget_mset String.eqb seqP). destruct (String.eqb role role') eqn:Q.
    + apply String.eqb_eq in Q. subst. now rewrite E.
    + destruct (sget role' p); auto.
Qed.
Lemma lk_apply p x role lang :
  lk (apply_label p x) role lang = if labelsb role lang x then Some (llCharData x) else lk p role lang.
Proof.
  rewrite apply_label_eq. unfold labelsb.
  destruct (role_of (llRole x)) as [r|]; auto.
  assert (E : lk (ensure_role r p) role lang = lk p role lang).
  { unfold lk. rewrite ensure_get. destruct (sget role p); auto. now destruct (String.eqb r role). }
  destruct (lang_of (llLang x)) as [l|]; auto.
  unfold lk. rewrite (mget_mset String.eqb seqP). destruct (String.eqb r role) eqn:Q.
  - apply String.eqb_eq in Q. subst r. rewrite (mget_mset String.eqb seqP). simpl.
    destruct (String.eqb l lang); auto. destruct (sget role p); auto.
  - simpl. exact E.
Qed.
Lemma role_apply p x role :
  (sget role (apply_label p x) <> None) <-> (sget role p <> None \/ role_of (llRole x) = Some role).
Proof.
  rewrite apply_label_eq. destruct (role_of (llRole x)) as [r|].
  2:{ split; auto. intros [H|H]; [auto|discriminate]. }
  assert (E : sget role (ensure_role r p) <> None <-> (sget role p <> None \/ Some r = Some role)).
  { rewrite ensure_get. destruct (sget role p); [split; auto; discriminate|].
    destruct (String.eqb r role) eqn:Q.
    - apply String.eqb_eq in Q. subst. split; [auto|discriminate].
    - apply String.eqb_neq in Q. split; [tauto|]. intros [H|H]; congruence. }
  destruct (lang_of (llLang x)) as [l|]; auto.
  rewrite (mget_mset String.eqb seqP). destruct (String.eqb r role) eqn:Q; auto.
  apply String.eqb_eq in Q. subst. split; [auto|discriminate].
Qed.

Lemma lk_fold href ps p role lang :
  lk (fold_left (fun p x => if connectsb href x then apply_label p (p_label x) else p) ps p) role lang =
  match find (fun x => connectsb href x && labelsb role lang (p_label x)) (rev ps) with
  | Some x => Some (llCharData (p_label x))
  | None => lk p role lang
  end.
Proof.
  revert p. induction ps as [|x t IH]; intro p; simpl; auto.
  rewrite IH, find_app. destruct (find _ (rev t)); auto. simpl.
  destruct (connectsb href x); simpl; auto. rewrite lk_apply. destruct (labelsb role lang (p_label x)); auto.
Qed.
Lemma roles_fold href ps p role :
  (sget role (fold_left (fun p x => if connectsb href x then apply_label p (p_label x) else p) ps p) <> None) <->
  (sget role p <> None \/ exists x, In x ps /\ connectsb href x = true /\ role_of (llRole (p_label x)) = Some role).
Proof.
  revert p. induction ps as [|x t IH]; intro p; simpl.
  - split; auto. intros [H|(x&[]&_)]; auto.
  - rewrite IH. destruct (connectsb href x) eqn:E.
    + rewrite role_apply. split.
      * intros [[H|H]|(y&Hy&C)]; eauto 8.
      * intros [H|(y&[<-|Hy]&C&R)]; eauto 8.
    + split.
      * intros [H|(y&Hy&C)]; eauto.
      * intros [H|(y&[<-|Hy]&C&R)]; eauto 8. congruence.
Qed.
Lemma labelsbP role lang x :
  labelsb role lang x = true <-> api_role (llRole x) role /\ api_lang (llLang x) lang.
Proof.
  unfold labelsb. rewrite <- role_ofP, <- lang_ofP.
  destruct (role_of (llRole x)) as [r|], (lang_of (llLang x)) as [l|];
    try (split; [discriminate|intros [? ?]; discriminate]).
  rewrite andb_true_iff, !String.eqb_eq. split; intros [H K]; split; congruence.
Qed.

(** ** Packs as maps *)
Lemma sget_In {V} k (m : list (string * V)) v : sget k m = Some v -> In (k, v) m.
Proof. apply mget_In, seqP. Qed.
Lemma sget_iff {V} k (m : list (string * V)) v : is_map m -> (sget k m = Some v <-> In (k, v) m).
Proof. apply mget_Some_iff, seqP. Qed.
Lemma sget_None {V} k (m : list (string * V)) : sget k m = None <-> ~ In k (map fst m).
Proof. apply mget_None, seqP. Qed.
Lemma sset_keys {V} k v (m : list (string * V)) x : In x (map fst (sset k v m)) <-> x = k \/ In x (map fst m).
Proof. apply mset_keys_In, seqP. Qed.
Lemma sset_is_map {V} k (v : V) m : is_map m -> is_map (sset k v m).
Proof. apply mset_NoDup, seqP. Qed.
Lemma sset_In {V} k (v : V) m x w : In (x, w) (sset k v m) -> (x = k /\ w = v) \/ In (x, w) m.
Proof.
  induction m as [|[k' v'] t IH]; simpl.
  - intros [H|[]]. injection H; auto.
  - destruct (String.eqb k' k) eqn:E; simpl.
    + apply String.eqb_eq in E. intros [H|H]; auto. injection H; intros; subst; auto.
    + intros [H|H]; auto. destruct (IH H); auto.
Qed.
Lemma sset_is_pack role m p : is_pack p -> is_map m -> is_pack (sset role m p).
Proof.
  intros [N M] Hm. split; [now apply sset_is_map|]. intros r m' H. apply sset_In in H as [[_ ->]|H]; eauto.
Qed.
Lemma apply_is_pack p x : is_pack p -> is_pack (apply_label p x).
Proof.
  intro H. rewrite apply_label_eq.
  assert (E : forall r, is_pack (ensure_role r p)).
  { intro r. unfold ensure_role. destruct (sget r p); auto. apply sset_is_pack; auto. constructor. }
  destruct (role_of (llRole x)) as [r|]; auto. destruct (lang_of (llLang x)) as [l|]; auto.
  apply sset_is_pack; auto. apply sset_is_map. destruct (sget r p) eqn:Q; [|constructor].
  apply sget_In in Q. eapply H; eauto.
Qed.
Lemma get_label_is_pack labels href : is_pack (get_label labels href).
Proof.
  unfold get_label. rewrite modifiers_flat.
  match goal with |- is_pack (fold_left ?f ?l ?p) => generalize l; assert (B : is_pack p) end.
  { split; [repeat constructor; auto|]. intros r m [H|[]]. injection H; intros <- _.
    unfold is_map. simpl. destruct (cut "#" href) as [[a t]|]; simpl; repeat constructor; simpl; auto.
    intros [H1|[]]; discriminate. }
  intro l. revert B. match goal with |- is_pack ?p -> _ => generalize p end.
  induction l as [|x t IH]; intros p B; simpl; auto. apply IH. destruct (connectsb href x); auto. now apply apply_is_pack.
Qed.
Lemma holds_lk p role lang text : is_pack p -> (holds p role lang text <-> lk p role lang = Some text).
Proof.
  intros [N M]. unfold holds, lk. split.
  - intros (m&H&K). rewrite (proj2 (sget_iff role p m N) H). apply sget_iff; auto. eapply M; eauto.
  - destruct (sget role p) eqn:E; [|discriminate]. intro H. apply sget_In in E, H. eauto.
Qed.

(** ** reduce *)
Lemma reduce_into_get ret item role :
  is_pack item ->
  sget role (reduce_into ret item) =
  match sget role item with
  | Some m => Some (fold_left (fun m lc => sset (fst lc) (snd lc) m) m [])
  | None => sget role ret
  end.
Proof.
  intros [N _]. unfold reduce_into. revert ret. unfold is_map in N.
  induction item as [|[r m] t IH]; intro ret; simpl; auto. simpl in N. inversion_clear N.
  rewrite IH; auto. destruct (String.eqb r role) eqn:E.
  - apply String.eqb_eq in E. subst. apply sget_None in H. rewrite H.
    now rewrite (mget_mset String.eqb seqP), seqb_refl.
  - destruct (sget role t); auto. now rewrite (mget_mset String.eqb seqP), E.
Qed.
Lemma copy_map_keys {V} (m m0 : list (string * V)) x :
  In x (map fst (fold_left (fun m lc => sset (fst lc) (snd lc) m) m m0)) <-> In x (map fst m) \/ In x (map fst m0).
Proof.
  revert m0. induction m as [|[k v] t IH]; intro m0; simpl; [tauto|]. rewrite IH, sset_keys. intuition.
Qed.
Lemma copy_map {V} (m : list (string * V)) :
  is_map m -> fold_left (fun m lc => sset (fst lc) (snd lc) m) m [] = m.
Proof.
  intro N. assert (G : forall m0, NoDup (map fst (m0 ++ m)%list) ->
    fold_left (fun m lc => sset (fst lc) (snd lc) m) m m0 = (m0 ++ m)%list).
  { clear N. induction m as [|[k v] t IH]; intros m0 N; simpl; [now rewrite app_nil_r|].
    assert (E : sset k v m0 = (m0 ++ [(k, v)])%list).
    { rewrite map_app in N. simpl in N. apply NoDup_remove_2 in N.
      assert (N' : ~ In k (map fst m0)) by (intro; apply N; apply in_or_app; auto). clear -N'.
      induction m0 as [|[k' v'] t' IH']; simpl; auto. destruct (String.eqb k' k) eqn:Q.
      - apply String.eqb_eq in Q. subst. exfalso. apply N'. simpl. auto.
      - f_equal. apply IH'. intro. apply N'. simpl. auto. }
    rewrite E, IH, <- app_assoc; auto. rewrite <- app_assoc. exact N. }
  now rewrite G.
Qed.
Lemma reduce_get packs p role : (forall q, In q packs -> is_pack q) ->
  reduce packs = Some p ->
  sget role p = match find (fun q => match sget role q with Some _ => true | None => false end) (rev packs) with
                | Some q => sget role q
                | None => None
                end.
Proof.
  intros W H.
  assert (G : forall l ret, (forall q, In q l -> is_pack q) ->
    sget role (fold_left reduce_into l ret) =
    match find (fun q => match sget role q with Some _ => true | None => false end) (rev l) with
    | Some q => sget role q | None => sget role ret end).
  { clear. induction l as [|q t IH]; intros ret W; simpl; auto.
    rewrite IH by (intros; apply W; simpl; auto). rewrite find_app. destruct (find _ (rev t)); auto. simpl.
    rewrite reduce_into_get by (apply W; simpl; auto). destruct (sget role q) as [m|] eqn:E; auto.
    rewrite copy_map; auto. destruct (W q) as [_ M]; [simpl; auto|]. eapply M. apply sget_In. eauto. }
  destruct packs as [|p1 [|p2 t]]; [discriminate| |].
  - injection H; intros <-. simpl. destruct (sget role p1) eqn:E; auto.
  - assert (E : p = fold_left reduce_into (p1 :: p2 :: t) []) by (simpl in H |- *; congruence).
    rewrite E, G; auto.
Qed.
Lemma reduce_is_pack packs p : (forall q, In q packs -> is_pack q) -> reduce packs = Some p -> is_pack p.
Proof.
  intros W H.
  assert (G : forall l ret, (forall q, In q l -> is_pack q) -> is_pack ret -> is_pack (fold_left reduce_into l ret)).
  { clear. induction l as [|q t IH]; intros ret W R; simpl; auto. apply IH; [intros; apply W; simpl; auto|].
    assert (Q : is_pack q) by (apply W; simpl; auto). destruct Q as [_ Q]. unfold reduce_into. clear W IH.
    revert ret R. induction q as [|[r m] q' IH]; intros ret R; simpl; auto.
    apply IH; [intros; eapply Q; simpl; eauto|]. apply sset_is_pack; auto.
    rewrite copy_map; eapply Q; simpl; eauto. }
  destruct packs as [|p1 [|p2 t]]; [discriminate| |].
  - injection H; intros <-. apply W. simpl; auto.
  - assert (E : p = fold_left reduce_into (p1 :: p2 :: t) []) by (simpl in H |- *; congruence).
    rewrite E. apply G; auto. split; [constructor|]. intros r m [].
Qed.
Lemma destruct_langs p lang :
  is_pack p -> (In lang (snd (destruct_pack p)) <-> exists role m, sget role p = Some m /\ In lang (map fst m)).
Proof.
  intros [N _]. unfold destruct_pack. simpl. rewrite in_flat_map. split.
  - intros ([r m]&I&H). exists r, m. split; auto. now apply sget_iff.
  - intros (r&m&E&H). apply sget_In in E. eauto.
Qed.

(** ** Locators *)
Lemma find_repeat {A B} (f : A -> bool) (b : B -> bool) (L : list A) rrs :
  find f (flat_map (fun rr => if b rr then L else []) rrs) = if existsb b rrs then find f L else None.
Proof.
  induction rrs as [|x t IH]; simpl; auto. rewrite find_app, IH. destruct (b x); simpl; auto.
  destruct (find f L); auto. now destruct (existsb b t).
Qed.
Lemma role_locators_eq {arc} role (lb : linkbase arc) :
  flat_map (fun k => if String.eqb (lRole k) role then lLocs k else []) (lbLinks lb) = role_locators role lb.
Proof.
  unfold role_locators. induction (lbLinks lb) as [|k t IH]; simpl; auto.
  destruct (string_dec (lRole k) role) as [->|N].
  - rewrite seqb_refl. simpl. now rewrite IH.
  - rewrite (seqb_false _ _ N). exact IH.
Qed.
Lemma locates_fun {arc} (lb : linkbase arc) role label :
  locates lb role label (map_locator_to_href role lb label).
Proof.
  unfold map_locator_to_href. rewrite role_locators_eq, find_repeat.
  destruct (existsb (fun rr => String.eqb role (rrRoleURI rr)) (lbRoleRefs lb)) eqn:E.
  - assert (D : declares lb role).
    { apply existsb_exists in E as (rr&I&Q). apply String.eqb_eq in Q. subst. now apply in_map. }
    destruct (find _ (role_locators role lb)) as [l|] eqn:F.
    + left. split; auto. rewrite find_first_such in F.
      assert (L : locLabel l = label).
      { destruct F as (l1&l2&_&P&_). apply andb_prop in P as [P _]. now apply String.eqb_eq. }
      replace (Loc (locHref l) label) with l by (destruct l; simpl in *; now subst).
      eapply first_such_iff; [|exact F]. intros y _. cbv beta.
      rewrite andb_true_iff, String.eqb_eq, <- has_char_false_iff. destruct (has_char _ _); split; intros [? ?]; split; congruence.
    + right. split; auto. right. rewrite find_None_iff in F. intros l I L. specialize (F l I). cbv beta in F.
      rewrite L, seqb_refl in F. simpl in F. now apply has_char_false_iff.
  - right. split; auto. left. intro D. unfold declares in D. apply in_map_iff in D as (rr&Q&I).
    rewrite <- not_true_iff_false in E. apply E. apply existsb_exists. exists rr. split; auto. apply String.eqb_eq. auto.
Qed.
Lemma locates_unique {arc} (lb : linkbase arc) role label h h' :
  locates lb role label h -> locates lb role label h' -> h = h'.
Proof.
  intros [[D F]|[N ->]] [[D' F']|[N' ->]]; auto.
  - pose proof (first_such_unique _ _ _ _ F F') as E. now injection E.
  - exfalso. destruct N' as [N'|N']; auto. destruct F as (l1&l2&E&[P Q]&_). apply Q. apply (N' (Loc h label)); auto.
    rewrite E. apply in_or_app. simpl; auto.
  - exfalso. destruct N as [N|N]; auto. destruct F' as (l1&l2&E&[P Q]&_). apply Q. apply (N (Loc h' label)); auto.
    rewrite E. apply in_or_app. simpl; auto.
Qed.

Lemma sset_In_iff {V} k (v : V) m x w : is_map m ->
  (In (x, w) (sset k v m) <-> (x = k /\ w = v) \/ (x <> k /\ In (x, w) m)).
Proof.
  intro M. rewrite <- (sget_iff _ _ _ (sset_is_map k v m M)), <- (sget_iff _ _ _ M).
  rewrite (mget_mset String.eqb seqP). destruct (String.eqb_spec k x) as [->|N]; intuition congruence.
Qed.
