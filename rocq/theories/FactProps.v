(** * FactProps: C53-C55, C75, C84, C85 *)
From Verif Require Import GoBase GoSpec GoFacts AttrModel SchemaModel InstanceModel InstanceSpec
  LabelModel LabelSpec LabelProofs FactModel FactSpec FactProofs.
Local Open Scope string_scope.

(** C53 *)
Theorem C53_no_panic : forall ks, exists html, text_block ks = Ok html.
Proof. exact text_block_ok. Qed.
Print Assumptions C53_no_panic.
(** an unbalanced stream: more cells are closed than were opened *)
Example C53_example :
  text_block [HEnd "td"; HStart "td" [("colspan", "3")]; HEnd "th"; HEnd "td"; HEnd "td"; HText " x "] =
  Ok "</td><td><td><td></th></td></td></td></td>x ".
Proof. vm_compute. reflexivity. Qed.

Lemma block_facts ks html : plain ks -> text_block ks = Ok html ->
  (forall x, In x (tags_of html) -> In x table_markup) /\ text_shown ks (text_of html) /\
  forall k, k = "th" \/ k = "td" ->
    List.length (filter (fun x => String.eqb x k) (tags_of html)) = cells k ks /\
    (tdepth k 0 ks = Some 0%nat -> gdepth k 0 (tags_of html) = Some 0%nat).
Proof.
  intros P H. unfold text_block in H.
  destruct (loop_ok ks (TB "" 0 [] []) 0 0 bl_nil bl_nil) as (t&e&H1&H2&H3).
  rewrite H1 in H. cbn [bind] in H. cbn [tbOut append] in H2. injection H; intros E. rewrite <- H2, E in H3. clear H H2 E.
  specialize (H3 P) as (_&H4&H5&H6). split; auto. split; auto. intros k K.
  assert (S : exists st : tb_state -> list Z, ((k = "th" /\ st = tbTh) \/ (k = "td" /\ st = tbTd))).
  { destruct K as [->| ->]; eauto. }
  destruct S as (st&S). destruct (H6 k st S) as [H7 H8]. split; auto. intro D.
  assert (E : st (TB "" 0 [] []) = []) by (destruct S as [[_ ->]|[_ ->]]; reflexivity).
  destruct (H8 0%nat 0%nat 0%nat) as (G&b&B&L); auto.
  { rewrite E. constructor. }
  rewrite E in G. simpl in G. assert (b = 0%nat) as -> by lia.
  inversion B as [X|]. rewrite <- X in G. exact G.
Qed.

(** C54. [k] is "td" or "th". *)
Theorem C54_balanced :
  forall k ks html, (k = "th" \/ k = "td") -> plain ks -> text_block ks = Ok html ->
    nested (opens_cell k) (closes_cell k) ks ->
    nested (eq k) (eq ("/" ++ k)) (tags_of html) /\
    exists n, columns k ks n /\ number_of (eq k) (tags_of html) n /\ number_of (eq ("/" ++ k)) (tags_of html) n.
Proof.
  intros k ks html K P H N. destruct (block_facts ks html P H) as (_&_&F). destruct (F k K) as [F1 F2].
  assert (XX : forall x, String.eqb x k = true -> String.eqb x ("/" ++ k) = true -> False).
  { intros x E1 E2. apply String.eqb_eq in E1, E2. subst x. destruct (slash_neq k) as [_ S].
    apply String.eqb_neq in S. congruence. }
  assert (D : tdepth k 0 ks = Some 0%nat).
  { eapply nested_depth; eauto using opnb_iff, clsb_iff.
    intros x O C. apply opnb_iff in O. apply clsb_iff in C. unfold closes_cell in C. subst x.
    destruct O as (a&[O|O]); discriminate. }
  specialize (F2 D).
  assert (Q : forall y x, String.eqb x y = true <-> y = x) by (intros y x; rewrite String.eqb_eq; split; congruence).
  split.
  - eapply (depth_nested (fun x => String.eqb x k) (fun x => String.eqb x ("/" ++ k))); auto.
  - exists (Z.of_nat (cells k ks)). split; [apply cells_columns|]. rewrite <- F1. split.
    + apply number_total. apply Q.
    + apply (depth_count _ _ XX) in F2. simpl in F2. rewrite F2. apply number_total. apply Q.
Qed.
Print Assumptions C54_balanced.
Example C54_example :
  let ks := [HStart "table" []; HStart "tr" []; HStart "td" [("class", "a"); ("colspan", "3")]; HText "Total";
             HEnd "td"; HSelf "td" [("colspan", "two")]; HText " 1 "; HEnd "td"; HEnd "tr"; HEnd "table"] in
  plain ks /\ nested (opens_cell "td") (closes_cell "td") ks /\
  text_block ks = Ok "<table><tr><td><td><td>Total </td></td></td><td>1 </td></tr></table>".
Proof.
  split; [|split].
  - intros d H. simpl in H. repeat (destruct H as [H|H]; [try discriminate; injection H; intros <-; vm_compute; intuition discriminate|]).
    destruct H.
  - eapply (depth_nested (opnb "td") (clsb "td")); [apply opnb_iff|apply clsb_iff|reflexivity].
  - vm_compute. reflexivity.
Qed.

(** C55 *)
Theorem C55_markup_partial :
  forall ks html, plain ks -> text_block ks = Ok html ->
    forall tag, In tag (tags_of html) ->
      In tag ["table"; "/table"; "tr"; "/tr"; "th"; "/th"; "td"; "/td"; "br /"].
Proof. intros ks html P H. now destruct (block_facts ks html P H) as (F&_). Qed.
Print Assumptions C55_markup_partial.
(** text tokens are unescaped and copied as they are: the content
    [&amp;lt;script&amp;gt;] is unescaped to [&lt;script&gt;], whose only token is this one *)
Theorem C55_refuted :
  exists ks html, text_block ks = Ok html /\ In "script" (tags_of html).
Proof. exists [HText "<script>"], "<script> ". split; vm_compute; auto. Qed.
Print Assumptions C55_refuted.

(** C84 *)
Theorem C84_text :
  forall ks html, plain ks -> text_block ks = Ok html -> text_shown ks (text_of html).
Proof. intros ks html P H. now destruct (block_facts ks html P H) as (_&F&_). Qed.
Print Assumptions C84_text.
Example C84_example :
  let ks := [HStart "p" []; HText "  Total assets"; HEnd "p"; HText "   "; HOther; HText "x  y "] in
  text_block ks = Ok "<br /><br />Total assets x  y " /\
  text_of "<br /><br />Total assets x  y " = "Total assets x  y ".
Proof. vm_compute. split; reflexivity. Qed.

(** C75 *)
Theorem C75_languages :
  forall e f langs, fIsNil f = false ->
    exists m, render e (Some f) langs = Ok m /\ is_map m /\
      forall lang, In lang (map fst m) <->
        In lang langs /\ In lang ["en - english"; "es - español"; "Unlabelled"].
Proof.
  intros e f langs N. unfold render. rewrite N.
  assert (R : forall g, exists x, render_fact g e f = Ok x).
  { intro g. unfold render_fact, render_text_block. destruct (re_concept e (fHref f)) as [c|]; eauto.
    destruct (String.eqb _ _); cbn [bind].
    - destruct (text_block_ok (re_html e (fXMLInner f))) as (h&->). cbn [bind]. eauto.
    - destruct (_ =? _)%Z; eauto. destruct (re_measurement e (fUnitRef f)). destruct (sig_figs _ _ _ _ _); eauto. }
  assert (G : forall l m, is_map m -> exists m', render_langs e f l m = Ok m' /\ is_map m' /\
    forall lang, In lang (map fst m') <->
      In lang (map fst m) \/ (In lang l /\ In lang ["en - english"; "es - español"; "Unlabelled"])).
  { induction l as [|a l IH]; intros m M; cbn [render_langs].
    - exists m. split; auto. split; auto. intro lang. simpl. tauto.
    - assert (K : forall g, In a ["en - english"; "es - español"; "Unlabelled"] ->
        exists m', (do x <- render_fact g e f; render_langs e f l (sset a x m)) = Ok m' /\ is_map m' /\
        forall lang, In lang (map fst m') <-> In lang (map fst m) \/
          (In lang (a :: l) /\ In lang ["en - english"; "es - español"; "Unlabelled"])).
      { intros g A. destruct (R g) as (x&->). cbn [bind]. destruct (IH (sset a x m)) as (m'&H1&H2&H3); auto using sset_is_map.
        exists m'. split; auto. split; auto. intro lang. rewrite H3, sset_keys. cbn [In] in *.
        split; [intros [[->|H]|[H H']]|intros [H|[[->|H] H']]]; auto. }
      destruct (String.eqb_spec a English) as [E|N1]; [apply (K ","%char); rewrite E; simpl; auto|].
      destruct (String.eqb_spec a Español) as [E|N2]; [apply (K " "%char); rewrite E; simpl; auto|].
      destruct (String.eqb_spec a PureLabel) as [E|N3]; [apply (K ","%char); rewrite E; simpl; auto|].
      destruct (IH m M) as (m'&H1&H2&H3). exists m'. split; auto. split; auto. intro lang. rewrite H3. cbn [In].
      unfold English, Español, PureLabel in *. split; [tauto|].
      intros [H|[[->|H] H']]; auto. exfalso. intuition congruence. }
  destruct (G langs []) as (m&H1&H2&H3); [constructor|]. exists m. split; auto. split; auto.
  intro lang. rewrite H3. simpl. tauto.
Qed.
Print Assumptions C75_languages.
Theorem C75_no_fact :
  forall e langs f, fIsNil f = true ->
    render e None langs = Ok [("Unlabelled", FactExpression "" "" "" "")] /\
    render e (Some f) langs = Ok [("Unlabelled", FactExpression "" "nil" "" "")].
Proof. intros e langs f N. unfold render. now rewrite N. Qed.
Print Assumptions C75_no_fact.

(** C85 *)
Theorem C85_expression :
  forall e f langs m lang x, fIsNil f = false -> render e (Some f) langs = Ok m -> In (lang, x) m ->
    (lang = "es - español" /\ shown_fact " " e f x) \/ (lang <> "es - español" /\ shown_fact "," e f x).
Proof.
  intros e f langs m lang x N. unfold render. rewrite N.
  assert (G : forall l m m', is_map m ->
    (forall lang x, In (lang, x) m ->
      (lang = "es - español" /\ shown_fact " " e f x) \/ (lang <> "es - español" /\ shown_fact "," e f x)) ->
    render_langs e f l m = Ok m' -> forall lang x, In (lang, x) m' ->
      (lang = "es - español" /\ shown_fact " " e f x) \/ (lang <> "es - español" /\ shown_fact "," e f x)).
  { induction l as [|a l IH]; intros m0 m' M Hm; cbn [render_langs].
    - intro H. injection H; intros <-. exact Hm.
    - assert (K : forall g, (a = "es - español" /\ g = " "%char) \/ (a <> "es - español" /\ g = ","%char) ->
        (do x <- render_fact g e f; render_langs e f l (sset a x m0)) = Ok m' -> forall lang x, In (lang, x) m' ->
        (lang = "es - español" /\ shown_fact " " e f x) \/ (lang <> "es - español" /\ shown_fact "," e f x)).
      { intros g A H. destruct (render_fact g e f) as [y| |] eqn:R; try discriminate. cbn [bind] in H.
        apply render_fact_iff in R. revert H. apply IH; auto using sset_is_map.
        intros lang0 x0 I. apply sset_In_iff in I as [[-> ->]|[_ I]]; auto.
        destruct A as [[-> ->]|[A ->]]; auto. }
      destruct (String.eqb_spec a English) as [E|N1].
      { apply (K ","%char). right. rewrite E. split; [discriminate|reflexivity]. }
      destruct (String.eqb_spec a Español) as [E|N2].
      { apply (K " "%char). left. auto. }
      destruct (String.eqb_spec a PureLabel) as [E|N3].
      { apply (K ","%char). right. rewrite E. split; [discriminate|reflexivity]. }
      apply IH; auto. }
  intros H I. revert lang x I. eapply G; eauto; [constructor|intros ? ? []].
Qed.
Print Assumptions C85_expression.
(** the description determines the expression *)
Theorem C85_unique : forall g e f x y, shown_fact g e f x -> shown_fact g e f y -> x = y.
Proof. intros g e f x y H K. apply render_fact_iff in H, K. congruence. Qed.
Print Assumptions C85_unique.
Example C85_example :
  let c := Concept (XName "g" "Assets") "g_Assets" (XName "x" "monetaryItemType") (XName "" "") false "" "" false "" in
  let usd := Measurement "USD" "US Dollar" "iso" "" "" "" "$" "" "" "" "" "" "" "" "" "" "" in
  let sh := Measurement "shares" "Share" "x" "" "" "" "" "" "" "" "" "" "" "" "" "" "" in
  let e := REnv (fun h => if String.eqb h "g.xsd#g_Assets" then Some c else None) (fun _ => (Some usd, Some sh))
             (fun _ => []) (fun p v g => Some ("", String "1" (String g "234"), "")) (fun _ => None) in
  let f := Fact "g.xsd#g_Assets" "f1" "c1" "u" 0 false "1234" in
  fIsNil f = false /\
  render e (Some f) ["en - english"; "fr"; "es - español"] =
    Ok [("en - english", FactExpression "$ " "1,234" " /Share" ""); ("es - español", FactExpression "$ " "1 234" " /Share" "")].
Proof. vm_compute. split; reflexivity. Qed.
