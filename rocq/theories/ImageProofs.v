(** Lemmas about inlined images. *)
From Coq Require Import Strings.String Strings.Ascii Lists.List Bool Arith Lia.
From Verif Require Import GoBase GoSpec GoFacts PathModel WebProofs LabelProofs ImageModel ImageSpec.
Import ListNotations.
Open Scope string_scope.

Section Induction.
  Variable P : html_node -> Prop.
  Hypothesis H : forall t data ns attrs children, Forall P children -> P (HtmlNode t data ns attrs children).
  Fixpoint html_node_ind' (n : html_node) : P n :=
    match n with
    | HtmlNode t data ns attrs children =>
        H t data ns attrs children
          ((fix go l : Forall P l := match l with [] => Forall_nil P | x :: r => Forall_cons x (html_node_ind' x) (go r) end) children)
    end.
End Induction.

(** ** The file name of a reference *)
Lemma split_slashes t : all_slashes t -> filter nonempty (split "/" t) = [].
Proof.
  induction t as [|c t IH]; cbn; auto. intros [-> Ht]. cbn. now apply IH.
Qed.
Lemma filter_split_glue a b : filter nonempty (split "/" (a ++ String "/" b)) =
  (filter nonempty (split "/" a) ++ filter nonempty (split "/" b))%list.
Proof.
  assert (E : split "/" (a ++ String "/" b) = (split "/" a ++ split "/" b)%list).
  { induction a as [|c a IH]; cbn [append]; [reflexivity|]. cbn [split].
    destruct (Ascii.eqb_spec c "/") as [->|Hc]; [now rewrite IH|]. rewrite IH.
    pose proof (split_nonnil "/" a). destruct (split "/" a); [contradiction|]. reflexivity. }
  rewrite E. apply filter_app.
Qed.
Lemma split_name_trail n t : free_of "/" n -> all_slashes t -> n <> "" -> filter nonempty (split "/" (n ++ t)) = [n].
Proof.
  intros Hn Ht Hne. destruct t as [|c t].
  - rewrite app_nil_r'. rewrite split_free_one by auto. cbn. now destruct n.
  - cbn in Ht. destruct Ht as [-> Ht]. rewrite filter_split_glue, (split_slashes t), split_free_one by auto.
    cbn. now destruct n.
Qed.
Lemma last_app_one {A} (l : list A) x : match (l ++ [x])%list with [] => x | y :: r => last r y end = x.
Proof. destruct l as [|y l]; cbn; auto. revert y. induction l as [|z l IH]; intros y; cbn; auto. destruct (l ++ [x])%list eqn:E; [now destruct l|]. apply (IH y). Qed.

Lemma file_name_base v n : file_name v n -> base v = n.
Proof.
  intros (Hn & Hf & d & t & -> & Ht & Hd). unfold base.
  assert (E : filter nonempty (split "/" (d ++ n ++ t)) = (filter nonempty (split "/" (if nonempty d then d else "")) ++ [n])%list).
  { destruct Hd as [->|(d' & ->)].
    - cbn [append nonempty]. now apply split_name_trail.
    - replace (nonempty (d' ++ "/")) with true by now destruct d'.
      rewrite app_assoc'. cbn [append]. rewrite !filter_split_glue, split_name_trail by auto. cbn. now rewrite app_nil_r. }
  destruct (d ++ n ++ t) eqn:Ev.
  - destruct d; [|discriminate]. destruct n; [contradiction|discriminate].
  - rewrite E. pose proof (last_app_one (filter nonempty (split "/" (if nonempty d then d else ""))) n) as HL.
    destruct (filter nonempty (split "/" (if nonempty d then d else "")) ++ [n])%list eqn:EE; auto.
    now destruct (filter nonempty (split "/" (if nonempty d then d else ""))).
Qed.

Lemma base_file_name v : (exists n, file_name v n) \/ base v = "." /\ v = "" \/ base v = "/" /\ all_slashes v.
Proof.
  assert (H : forall v, all_slashes v \/ exists d n t, v = d ++ n ++ t /\ n <> "" /\ free_of "/" n /\ all_slashes t /\ (d = "" \/ exists d', d = d' ++ "/")).
  { clear v. induction v as [|c v [IH|(d & n & t & -> & Hn & Hf & Ht & Hd)]].
    - left. exact I.
    - destruct (Ascii.eqb_spec c "/") as [->|Hc]; [left; cbn; auto|]. right. exists "", (String c ""), v. cbn.
      split; [reflexivity|]. split; [discriminate|]. split; [auto|]. split; auto.
    - right. destruct Hd as [->|(d' & ->)].
      + destruct (Ascii.eqb_spec c "/") as [->|Hc].
        * exists "/", n, t. split; [reflexivity|]. repeat (split; auto). right. exists "". reflexivity.
        * exists "", (String c n), t. split; [reflexivity|]. split; [discriminate|]. split; [cbn; auto|]. auto.
      + exists (String c (d' ++ "/")), n, t. split; [reflexivity|]. repeat (split; auto). right. exists (String c d'). reflexivity. }
  destruct (H v) as [Hs|(d & n & t & E & Hn & Hf & Ht & Hd)].
  - destruct v as [|c v]; [right; left; auto|]. right; right. split; auto. unfold base. now rewrite split_slashes.
  - left. exists n. split; auto. split; auto. eauto 10.
Qed.

(** ** replace *)
Section WithImages.
  Variable images : list (string * string).
  Hypothesis Hkeys : NoDup (map fst images).
  Hypothesis Hnames : forall name uri, In (name, uri) images -> name <> "." /\ free_of "/" name.

  Lemma replace_attr_inlined (img : Prop) a : img -> attr_inlined images img a (replace_attr images a).
  Proof.
    intros Hi. unfold replace_attr. destruct (String.eqb_spec (haKey a) "src") as [Ek|Ek].
    - destruct (sget (base (haVal a)) images) as [data|] eqn:E.
      + apply sget_In in E. destruct (base_file_name (haVal a)) as [(n & Hn)|[[Eb _]|[Eb _]]].
        * rewrite (file_name_base _ _ Hn) in E. rewrite Ek. eapply inlined_image; eauto.
        * rewrite Eb in E. now destruct (Hnames _ _ E).
        * rewrite Eb in E. destruct (Hnames _ _ E) as [_ [Hx _]]. contradiction.
      + apply inlined_kept. intros _ _ n data Hn Hin. rewrite (file_name_base _ _ Hn) in E.
        apply (proj2 (sget_iff n images data Hkeys)) in Hin. congruence.
    - apply inlined_kept. intros _ E. contradiction.
  Qed.

  Lemma replace_inlined : forall n, inlined images n (replace_images images n).
  Proof.
    apply html_node_ind'. intros t data ns attrs children HF. cbn. constructor.
    - destruct (is_element t && String.eqb data "img") eqn:E.
      + apply andb_prop in E as [E1 E2]. apply String.eqb_eq in E2. subst data.
        assert (t = ElementNode) by (now destruct t). subst t.
        induction attrs; constructor; auto. now apply replace_attr_inlined.
      + induction attrs; constructor; auto. apply inlined_kept. intros [-> ->] _. discriminate.
    - induction HF; constructor; auto.
  Qed.

  (** The specification leaves no choice *)
  Lemma attr_inlined_fun img a b c : attr_inlined images img a b -> attr_inlined images img a c -> b = c.
  Proof.
    intros H1 H2. inversion H1 as [n d Hi Hk Hn Hin|Hk]; inversion H2 as [n' d' Hi' Hk' Hn' Hin'|Hk']; subst; auto.
    - f_equal. rewrite <- (file_name_base _ _ Hn) in Hin. rewrite <- (file_name_base _ _ Hn') in Hin'.
      apply (proj2 (sget_iff _ images _ Hkeys)) in Hin, Hin'. congruence.
    - exfalso. eapply Hk'; eauto.
    - exfalso. eapply Hk; eauto.
  Qed.
  Lemma inlined_fun : forall n m, inlined images n m -> m = replace_images images n.
  Proof.
    apply (html_node_ind' (fun n => forall m, inlined images n m -> m = replace_images images n)).
    intros t data ns attrs children HF m H. pose proof (replace_inlined (HtmlNode t data ns attrs children)) as HR.
    cbn in *. inversion H as [? ? ? ? attrs' ? children' HA HC]; subst. inversion HR as [? ? ? ? ? ? ? HA' HC']; subst.
    f_equal.
    - clear - Hkeys HA HA'. revert HA'. generalize (if is_element t && String.eqb data "img" then map (replace_attr images) attrs else attrs) as bs.
      induction HA as [|a b as' bs' Hab HA IH]; intros bs HA'; inversion HA'; subst; auto.
      f_equal; eauto using attr_inlined_fun.
    - clear - HF HC. revert children' HC. induction HF as [|x xs Hx HF IH]; intros children' HC; inversion HC; subst; cbn; auto.
      f_equal; auto.
  Qed.
End WithImages.

(** ** processImages *)
Lemma process_images_fold detect base64 fs : forall acc,
  NoDup (map deName fs) -> (forall f, In f fs -> ~ In (deName f) (map fst acc)) -> NoDup (map fst acc) ->
  let r := fold_left (fun images f =>
        if deIsDir f then images
        else match deBytes f with
             | None => images
             | Some bytes =>
                 if String.eqb (detect bytes) "image/jpeg" then sset (deName f) ("data:image/jpeg;base64," ++ base64 bytes) images
                 else if String.eqb (detect bytes) "image/png" then sset (deName f) ("data:image/png;base64," ++ base64 bytes) images
                 else images
             end) fs acc in
  NoDup (map fst r) /\
  forall name uri, In (name, uri) r <-> In (name, uri) acc \/ folder_image detect base64 fs name uri.
Proof.
  induction fs as [|f fs IH]; intros acc Hnd Hfresh Hacc r.
  - subst r. cbn. split; auto. intros name uri. split; auto. intros [H|(f & b & [] & _)]; auto.
  - inversion Hnd as [|? ? Hnotin Hnd']; subst.
    assert (Hskip : forall P : Prop, (forall bytes, deIsDir f = false -> deBytes f = Some bytes -> detect bytes = "image/jpeg" \/ detect bytes = "image/png" -> False) ->
       (forall name uri, folder_image detect base64 (f :: fs) name uri <-> folder_image detect base64 fs name uri)).
    { intros _ Hno name uri. split.
      - intros (g & b & [<-|Hg] & H1 & H2 & H3 & H4); [|exists g, b; auto]. exfalso. apply (Hno b H2 H3). tauto.
      - intros (g & b & Hg & Hrest). exists g, b. split; [now right|exact Hrest]. }
    assert (Hset : forall bytes pre, deIsDir f = false -> deBytes f = Some bytes ->
       (detect bytes = "image/jpeg" /\ pre = "data:image/jpeg;base64," \/ detect bytes = "image/png" /\ pre = "data:image/png;base64,") ->
       forall name uri, (In (name, uri) (sset (deName f) (pre ++ base64 bytes) acc) \/ folder_image detect base64 fs name uri) <->
                        (In (name, uri) acc \/ folder_image detect base64 (f :: fs) name uri)).
    { intros bytes pre H1 H2 H3 name uri. rewrite sset_In_iff by exact Hacc. split.
      - intros [[[-> ->]|[_ H]]|(g & b & Hg & Hrest)].
        + right. exists f, bytes. split; [now left|]. repeat (split; auto). destruct H3 as [[H3 ->]|[H3 ->]]; auto.
        + now left.
        + right. exists g, b. split; [now right|exact Hrest].
      - intros [H|(g & b & [<-|Hg] & E1 & E2 & E3 & E4)].
        + left. right. split; auto. intros ->. apply (Hfresh f (or_introl eq_refl)). change (deName f) with (fst (deName f, uri)). now apply in_map.
        + left. left. split; auto. assert (b = bytes) by congruence. subst b.
          destruct H3 as [[H3 ->]|[H3 ->]], E4 as [[E4 ->]|[E4 ->]]; auto; congruence.
        + right. exists g, b. auto. }
    assert (Hfresh' : forall v g, In g fs -> ~ In (deName g) (map fst (sset (deName f) v acc))).
    { intros v g Hg Hin. apply sset_keys in Hin as [E|Hin]; [|now apply (Hfresh g (or_intror Hg))].
      apply Hnotin. rewrite <- E. now apply in_map. }
    assert (Hfresh0 : forall g, In g fs -> ~ In (deName g) (map fst acc)) by (intros g Hg; apply Hfresh; now right).
    subst r. cbn [fold_left].
    destruct (deIsDir f) eqn:Ed.
    { destruct (IH acc Hnd' Hfresh0 Hacc) as [N HI]. split; auto. intros name uri. rewrite HI, (Hskip True); [reflexivity|discriminate]. }
    destruct (deBytes f) as [bytes|] eqn:Eb.
    2:{ destruct (IH acc Hnd' Hfresh0 Hacc) as [N HI]. split; auto. intros name uri. rewrite HI, (Hskip True); [reflexivity|discriminate]. }
    destruct (String.eqb_spec (detect bytes) "image/jpeg") as [Ej|Ej].
    { set (v := "data:image/jpeg;base64," ++ base64 bytes). destruct (IH (sset (deName f) v acc) Hnd' (Hfresh' v) (sset_is_map _ v _ Hacc)) as [N HI]. split; [exact N|]. intros name uri. rewrite HI.
      apply Hset; auto. }
    destruct (String.eqb_spec (detect bytes) "image/png") as [Ep|Ep].
    { set (v := "data:image/png;base64," ++ base64 bytes). destruct (IH (sset (deName f) v acc) Hnd' (Hfresh' v) (sset_is_map _ v _ Hacc)) as [N HI]. split; [exact N|]. intros name uri. rewrite HI.
      apply Hset; auto. }
    destruct (IH acc Hnd' Hfresh0 Hacc) as [N HI]. split; auto. intros name uri. rewrite HI, (Hskip True); [reflexivity|].
    intros b _ [= <-] [H|H]; contradiction.
Qed.
