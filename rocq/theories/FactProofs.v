(** * FactProofs: lemmas about rendered text blocks and facts *)
From Verif Require Import GoBase GoSpec GoFacts AttrModel SchemaModel InstanceModel InstanceSpec InstanceProofs
  LabelModel LabelSpec LabelProofs FactModel FactSpec.
Local Open Scope string_scope.

(** ** Proper nesting as a depth count *)
Section Depth.
  Context {X : Type} (opn cls : X -> bool) (opens closes : X -> Prop).
  Context (Ho : forall x, opn x = true <-> opens x) (Hc : forall x, cls x = true <-> closes x).
  Context (Hx : forall x, opn x = true -> cls x = true -> False).
  Fixpoint depth (d : nat) (l : list X) : option nat :=
    match l with
    | [] => Some d
    | x :: t => if opn x then depth (S d) t
                else if cls x then match d with O => None | S d' => depth d' t end
                else depth d t
    end.
  Lemma depth_app d l r : depth d (l ++ r)%list = match depth d l with Some d' => depth d' r | None => None end.
  Proof.
    revert d. induction l as [|x l IH]; intro d; simpl; auto.
    destruct (opn x); auto. destruct (cls x); auto. destruct d; auto.
  Qed.
  Lemma nested_depth l : nested opens closes l -> forall d, depth d l = Some d.
  Proof.
    induction 1 as [|x l N1 N2 _ IH|x l y l' O C _ IH1 _ IH2]; intro d; cbn [depth]; auto.
    - destruct (opn x) eqn:E; [apply Ho in E; contradiction|].
      destruct (cls x) eqn:E'; [apply Hc in E'; contradiction|]. auto.
    - rewrite (proj2 (Ho x) O), depth_app, IH1. cbn [depth].
      destruct (opn y) eqn:E; [exfalso; eapply Hx; [exact E|]; now apply Hc|].
      rewrite (proj2 (Hc y) C). auto.
  Qed.
  (** [l] closes [d] more than it opens *)
  Inductive closing : nat -> list X -> Prop :=
  | cl_zero l : nested opens closes l -> closing 0 l
  | cl_more d l y l' : nested opens closes l -> closes y -> closing d l' -> closing (S d) (l ++ y :: l').
  Lemma depth_closing l : forall d, depth d l = Some 0%nat -> closing d l.
  Proof.
    induction l as [|x l IH]; intros d; cbn [depth].
    - intro H. injection H; intros ->. constructor. constructor.
    - destruct (opn x) eqn:O.
      + intro H. apply IH in H. apply Ho in O. inversion H as [|d' m y l' N C K E1 E2]; subst.
        inversion K as [m' N'|d2 m' y' l2 N' C' K']; subst.
        * constructor. apply nest_pair; auto.
        * change (x :: m ++ y :: m' ++ y' :: l2)%list with ((x :: m ++ y :: m' ++ y' :: l2))%list.
          replace (x :: m ++ y :: m' ++ y' :: l2)%list with ((x :: m ++ y :: m') ++ y' :: l2)%list
            by (simpl; now rewrite <- app_assoc).
          constructor; auto. apply nest_pair; auto.
      + destruct (cls x) eqn:C.
        * destruct d as [|d]; [discriminate|]. intro H. apply IH in H. apply Hc in C.
          apply (cl_more d [] x l); auto. constructor.
        * intro H. apply IH in H. assert (NO : ~ opens x) by (rewrite <- Ho; congruence).
          assert (NC : ~ closes x) by (rewrite <- Hc; congruence).
          inversion H; subst.
          -- constructor. now constructor.
          -- apply (cl_more _ (x :: l0)); auto. now constructor.
  Qed.
  Lemma depth_nested l : depth 0 l = Some 0%nat -> nested opens closes l.
  Proof. intro H. apply depth_closing in H. now inversion H. Qed.
  Lemma number_total (P : X -> Prop) (p : X -> bool) (Hp : forall x, p x = true <-> P x) l :
    number_of P l (Z.of_nat (List.length (filter p l))).
  Proof.
    induction l as [|x l IH]; cbn [filter]; [constructor|].
    destruct (p x) eqn:E.
    - apply Hp in E. cbn [List.length]. rewrite Nat2Z.inj_succ. unfold Z.succ. now constructor.
    - constructor; auto. rewrite <- Hp. congruence.
  Qed.
  Lemma depth_count l : forall d d', depth d l = Some d' ->
    (d + List.length (filter opn l) = d' + List.length (filter cls l))%nat.
  Proof.
    induction l as [|x l IH]; intros d d'; cbn [depth filter].
    - intro H. injection H; intros ->. simpl. lia.
    - destruct (opn x) eqn:O.
      + intro H. apply IH in H. assert (cls x = false) as ->.
        { destruct (cls x) eqn:C; auto. exfalso. eauto. }
        simpl List.length. lia.
      + destruct (cls x) eqn:C.
        * destruct d; [discriminate|]. intro H. apply IH in H. simpl List.length. lia.
        * auto.
  Qed.
End Depth.

(** ** Reading HTML back *)
Definition complete (s : string) : Prop :=
  forall e, tags_of (s ++ e) = (tags_of s ++ tags_of e)%list /\ text_of (s ++ e) = text_of s ++ text_of e.
Lemma complete_nil : complete "".
Proof. intro e. auto. Qed.
Lemma complete_app a b : complete a -> complete b -> complete (a ++ b).
Proof.
  intros A B e. rewrite append_assoc. destruct (A (b ++ e)) as [A1 A2], (A b) as [A3 A4], (B e) as [B1 B2].
  rewrite A1, A2, A3, A4, B1, B2. rewrite app_assoc, append_assoc. auto.
Qed.
Lemma text_complete t : free_of "<" t -> complete t /\ tags_of t = [] /\ text_of t = t.
Proof.
  induction t as [|c t IH]; intro F.
  - repeat split; auto.
  - destruct F as [N F]. specialize (IH F) as (C&T&X). apply Ascii.eqb_neq in N.
    split; [|split].
    + intro e. destruct (C e) as [C1 C2]. cbn [append tags_of text_of]. rewrite N, C1, C2. auto.
    + cbn [tags_of]. now rewrite N.
    + cbn [text_of]. now rewrite N, X.
Qed.

(** ** Repetition *)
Fixpoint srep (n : nat) (s : string) : string := match n with O => "" | S k => s ++ srep k s end.
Lemma srep_snoc n s : srep n s ++ s = s ++ srep n s.
Proof. induction n as [|n IH]; simpl; [now rewrite append_nil_r|]. rewrite append_assoc, IH. reflexivity. Qed.
Lemma srep_complete n s tag : complete s -> tags_of s = [tag] -> text_of s = "" ->
  complete (srep n s) /\ tags_of (srep n s) = repeat tag n /\ text_of (srep n s) = "".
Proof.
  intros C T X. induction n as [|n (IC&IT&IX)]; simpl.
  - repeat split.
  - split; [now apply complete_app|]. destruct (C (srep n s)) as [C1 C2]. rewrite C1, C2, T, X, IT, IX. auto.
Qed.
Lemma tag_complete s tag : In (s, tag) [("<th>", "th"); ("</th>", "/th"); ("<td>", "td"); ("</td>", "/td");
    ("<table>", "table"); ("</table>", "/table"); ("<tr>", "tr"); ("</tr>", "/tr"); ("<br />", "br /")] ->
  complete s /\ tags_of s = [tag] /\ text_of s = "".
Proof.
  intro H. simpl in H.
  repeat (destruct H as [H|H]; [injection H; intros; subst; repeat split; intros; simpl; auto|]). destruct H.
Qed.

Definition with_th (t : tb_state) (o : string) (s : list Z) : tb_state := TB (tbOut t ++ o) (tbBr t) s (tbTd t).
Definition with_td (t : tb_state) (o : string) (s : list Z) : tb_state := TB (tbOut t ++ o) (tbBr t) (tbTh t) s.
Lemma push_th_times n z : forall t,
  times n (push_th z) t = Ok (with_th t (srep n "<th>") (repeat z n ++ tbTh t)%list).
Proof.
  induction n as [|n IH]; intro t; cbn [times].
  - destruct t. unfold with_th. simpl. now rewrite append_nil_r.
  - unfold push_th at 1. cbn [bind]. rewrite IH. unfold with_th, emit. simpl. f_equal. f_equal.
    + now rewrite append_assoc.
    + change (z :: repeat z n ++ tbTh t)%list with ((z :: repeat z n) ++ tbTh t)%list.
      rewrite repeat_cons, <- app_assoc. reflexivity.
Qed.
Lemma push_td_times n z : forall t,
  times n (push_td z) t = Ok (with_td t (srep n "<td>") (repeat z n ++ tbTd t)%list).
Proof.
  induction n as [|n IH]; intro t; cbn [times].
  - destruct t. unfold with_td. simpl. now rewrite append_nil_r.
  - unfold push_td at 1. cbn [bind]. rewrite IH. unfold with_td, emit. simpl. f_equal. f_equal.
    + now rewrite append_assoc.
    + change (z :: repeat z n ++ tbTd t)%list with ((z :: repeat z n) ++ tbTd t)%list.
      rewrite repeat_cons, <- app_assoc. reflexivity.
Qed.
Lemma pop_th_times n z s : forall t, tbTh t = (repeat z n ++ s)%list ->
  times n (pop_th z) t = Ok (with_th t (srep n "</th>") s).
Proof.
  induction n as [|n IH]; intros t E; cbn [times].
  - destruct t. simpl in E. unfold with_th. simpl. rewrite append_nil_r. congruence.
  - unfold pop_th at 1. rewrite E. simpl. rewrite IH by reflexivity. unfold with_th, emit. simpl.
    now rewrite append_assoc.
Qed.
Lemma pop_td_times n z s : forall t, tbTd t = (repeat z n ++ s)%list ->
  times n (pop_td z) t = Ok (with_td t (srep n "</td>") s).
Proof.
  induction n as [|n IH]; intros t E; cbn [times].
  - destruct t. simpl in E. unfold with_td. simpl. rewrite append_nil_r. congruence.
  - unfold pop_td at 1. rewrite E. simpl. rewrite IH by reflexivity. unfold with_td, emit. simpl.
    now rewrite append_assoc.
Qed.

(** ** The stacks: one block of [n - 1] copies of [n] per open cell spanning [n > 1] columns *)
Inductive blocks : list Z -> nat -> Prop :=
| bl_nil : blocks [] 0
| bl_cons n s b : blocks s b -> blocks (repeat (Z.of_nat (S (S n))) (S n) ++ s) (S b).

Definition span (attrs : list (string * string)) : nat :=
  match sget "colspan" attrs with
  | Some v => match atoi v with Some z => S (Z.to_nat (z - 1)) | None => 1 end
  | None => 1
  end.
Lemma span_spec attrs : spans attrs (Z.of_nat (span attrs)).
Proof.
  unfold spans, span.
  assert (F : forall v, first_such (fun a : string * string => fst a = "colspan") attrs ("colspan", v) <->
              sget "colspan" attrs = Some v).
  { intro v. induction attrs as [|[k w] attrs IH]; cbn [mget].
    - split; [intros (l1&l2&E&_); destruct l1; discriminate|discriminate].
    - destruct (String.eqb_spec k "colspan") as [->|N].
      + split.
        * intros (l1&l2&E&_&H). destruct l1 as [|a l1]; simpl in E; [congruence|].
          injection E; intros _ <-. exfalso. apply (H ("colspan", w)); simpl; auto.
        * intro E. exists [], attrs. repeat split; simpl; try congruence; try (intros y []).
      + rewrite <- IH. split.
        * intros (l1&l2&E&P&H). destruct l1 as [|a l1]; simpl in E; [congruence|].
          injection E; intros E' <-. exists l1, l2. repeat split; auto. intros y Y. apply H. now right.
        * intros (l1&l2&->&P&H). exists ((k, w) :: l1), l2. repeat split; auto.
          intros y [<-|Y]; auto. }
  destruct (sget "colspan" attrs) as [v|] eqn:G.
  - destruct (atoi v) as [z|] eqn:A.
    + left. exists v, z. rewrite <- atoi_iff. repeat split; auto; [now apply F|lia].
    + right. split; auto. intros v' z H. apply F in H. rewrite <- atoi_iff. congruence.
  - right. split; auto. intros v z H. apply F in H. congruence.
Qed.

(** the effect of a token on the cells of kind [k] *)
Inductive eff (k : string) : html_token -> list Z -> list Z -> list string -> Prop :=
| eff_open tok attrs s : tok = HStart k attrs \/ tok = HSelf k attrs ->
    eff k tok s (repeat (Z.of_nat (span attrs)) (span attrs - 1) ++ s)%list (repeat k (span attrs))
| eff_close_nil : eff k (HEnd k) [] [] [("/" ++ k)]
| eff_close n s : eff k (HEnd k) (repeat (Z.of_nat (S (S n))) (S n) ++ s)%list s (repeat ("/" ++ k) (S (S n)))
| eff_other tok s tags : ~ opens_cell k tok -> tok <> HEnd k ->
    (forall x, In x tags -> x <> k /\ x <> "/" ++ k) -> eff k tok s s tags.

Lemma eff_blocks k tok s s' tags b : eff k tok s s' tags -> blocks s b -> exists b', blocks s' b'.
Proof.
  intros E B. inversion E; subst; eauto.
  - destruct (span attrs) as [|[|n]] eqn:S; simpl; eauto.
    exists (Datatypes.S b). apply (bl_cons n). exact B.
  - remember (repeat (Z.of_nat (Datatypes.S (Datatypes.S n))) (Datatypes.S n) ++ s')%list as u eqn:U.
    destruct B as [|n' s0 b' B']; [discriminate|].
    exists b'. cbn [repeat app] in U. injection U; intros H1 H2.
    assert (n' = n) as -> by lia. apply app_inv_head in H1. now subst.
Qed.

(** ** Trimming *)
Lemma trimmed_free c s t : trimmed_text s t -> free_of c s -> free_of c t.
Proof. intros (a&b&->&_) F. apply free_of_app in F as [_ F]. now apply free_of_app in F as [F _]. Qed.

(** ** One token *)
Lemma span_push attrs (push : Z -> tb_state -> res tb_state) t :
  (forall z, times 0 (push z) t = Ok t) ->
  col_span_helper attrs push t = times (span attrs - 1) (push (Z.of_nat (span attrs))) t.
Proof.
  intro H0. unfold col_span_helper, span. destruct (sget "colspan" attrs) as [v|]; auto.
  destruct (atoi v) as [z|]; auto. rewrite Nat.sub_succ, Nat.sub_0_r.
  destruct (Z.to_nat (z - 1)) as [|n] eqn:E; auto. rewrite <- E. f_equal. f_equal. lia.
Qed.
Lemma span_pos attrs : (1 <= span attrs)%nat.
Proof. unfold span. destruct (sget "colspan" attrs); auto. destruct (atoi s); lia. Qed.

Definition eff_state (tok : html_token) (t t' : tb_state) (tags : list string) : Prop :=
  eff "th" tok (tbTh t) (tbTh t') tags /\ eff "td" tok (tbTd t) (tbTd t') tags.
Definition step_ok (tok : html_token) (t t' : tb_state) (e : string) : Prop :=
  complete e /\ (forall x, In x (tags_of e) -> In x table_markup) /\ text_shown [tok] (text_of e) /\
  eff_state tok t t' (tags_of e).
Lemma not_cell k tok n : k <> n -> (exists a, tok = HStart n a \/ tok = HSelf n a) \/ tok = HEnd n ->
  ~ opens_cell k tok /\ tok <> HEnd k.
Proof.
  intros N [(a&[->| ->])| ->]; split; try (intros (a'&[H|H]); congruence); congruence.
Qed.
Lemma br_complete : complete "<br /><br />" /\ tags_of "<br /><br />" = ["br /"; "br /"] /\ text_of "<br /><br />" = "".
Proof. repeat split; intros; simpl; auto. Qed.
Lemma not_text k n a : (k = HStart n a \/ k = HSelf n a) \/ k = HEnd n -> text_shown [k] "".
Proof. intro H. apply tx_other; [|constructor]. intros d ->. destruct H as [[H|H]|H]; discriminate. Qed.

Lemma open_ok tok name attrs t : tok = HStart name attrs \/ tok = HSelf name attrs ->
  exists t' e, tb_open name attrs t = Ok t' /\ tbOut t' = tbOut t ++ e /\ step_ok tok t t' e.
Proof.
  intro K. pose proof (span_pos attrs) as SP. assert (TX : text_shown [tok] "") by (eapply not_text; eauto).
  assert (EX : exists a, tok = HStart name a \/ tok = HSelf name a) by eauto.
  unfold tb_open.
  destruct (String.eqb_spec name "table") as [->|N1].
  { replace (mem String.eqb "table" block_elems) with false by reflexivity. cbn [bind]. rewrite andb_false_r.
    do 2 eexists. split; [reflexivity|]. split; [reflexivity|].
    destruct (tag_complete "<table>" "table") as (C&T&X); [simpl; tauto|].
    split; auto. rewrite T, X. split; [intros x [<-|[]]; simpl; tauto|]. split; auto.
    split; (apply eff_other; [eapply (not_cell _ _ "table"); eauto; discriminate
                             |eapply (not_cell _ _ "table"); eauto; discriminate|intros x [<-|[]]; split; discriminate]). }
  destruct (String.eqb_spec name "tr") as [->|N2].
  { replace (mem String.eqb "tr" block_elems) with false by reflexivity. cbn [bind]. rewrite andb_false_r.
    do 2 eexists. split; [reflexivity|]. split; [reflexivity|].
    destruct (tag_complete "<tr>" "tr") as (C&T&X); [simpl; tauto|].
    split; auto. rewrite T, X. split; [intros x [<-|[]]; simpl; tauto|]. split; auto.
    split; (apply eff_other; [eapply (not_cell _ _ "tr"); eauto; discriminate
                             |eapply (not_cell _ _ "tr"); eauto; discriminate|intros x [<-|[]]; split; discriminate]). }
  destruct (String.eqb_spec name "th") as [->|N3].
  { replace (mem String.eqb "th" block_elems) with false by reflexivity.
    rewrite span_push by reflexivity. rewrite push_th_times. cbn [bind]. rewrite andb_false_r.
    exists (with_th (emit "<th>" t) (srep (span attrs - 1) "<th>")
              (repeat (Z.of_nat (span attrs)) (span attrs - 1) ++ tbTh t)%list), (srep (span attrs) "<th>").
    split; [reflexivity|]. split.
    { unfold with_th, emit. simpl. rewrite append_assoc. destruct (span attrs) as [|n]; [lia|].
      rewrite Nat.sub_succ, Nat.sub_0_r. reflexivity. }
    destruct (tag_complete "<th>" "th") as (C&T&X); [simpl; tauto|].
    destruct (srep_complete (span attrs) _ _ C T X) as (C'&T'&X').
    split; auto. rewrite T', X'. split; [intros x I; apply repeat_spec in I; subst; simpl; tauto|]. split; auto.
    split.
    - apply eff_open; auto.
    - apply eff_other; [eapply (not_cell _ _ "th"); eauto; discriminate
                       |eapply (not_cell _ _ "th"); eauto; discriminate|].
      intros x I. apply repeat_spec in I. subst. split; discriminate. }
  destruct (String.eqb_spec name "td") as [->|N4].
  { replace (mem String.eqb "td" block_elems) with false by reflexivity.
    rewrite span_push by reflexivity. rewrite push_td_times. cbn [bind]. rewrite andb_false_r.
    exists (with_td (emit "<td>" t) (srep (span attrs - 1) "<td>")
              (repeat (Z.of_nat (span attrs)) (span attrs - 1) ++ tbTd t)%list), (srep (span attrs) "<td>").
    split; [reflexivity|]. split.
    { unfold with_td, emit. simpl. rewrite append_assoc. destruct (span attrs) as [|n]; [lia|].
      rewrite Nat.sub_succ, Nat.sub_0_r. reflexivity. }
    destruct (tag_complete "<td>" "td") as (C&T&X); [simpl; tauto|].
    destruct (srep_complete (span attrs) _ _ C T X) as (C'&T'&X').
    split; auto. rewrite T', X'. split; [intros x I; apply repeat_spec in I; subst; simpl; tauto|]. split; auto.
    split.
    - apply eff_other; [eapply (not_cell _ _ "td"); eauto; discriminate
                       |eapply (not_cell _ _ "td"); eauto; discriminate|].
      intros x I. apply repeat_spec in I. subst. split; discriminate.
    - apply eff_open; auto. }
  cbn [bind]. destruct (_ && _).
  - do 2 eexists. split; [reflexivity|]. split; [reflexivity|].
    destruct br_complete as (C&T&X). split; auto. rewrite T, X. split; [intros x [<-|[<-|[]]]; simpl; tauto|].
    split; auto.
    split; (apply eff_other; [eapply (not_cell _ _ name); eauto|eapply (not_cell _ _ name); eauto
                             |intros x [<-|[<-|[]]]; split; discriminate]).
  - exists t, "". split; [reflexivity|]. split; [now rewrite append_nil_r|].
    split; [apply complete_nil|]. split; [intros x []|]. split; auto.
    split; (apply eff_other; [eapply (not_cell _ _ name); eauto|eapply (not_cell _ _ name); eauto|intros x []]).
Qed.
Lemma close_ok name t b1 b2 : blocks (tbTh t) b1 -> blocks (tbTd t) b2 ->
  exists t' e, tb_close name t = Ok t' /\ tbOut t' = tbOut t ++ e /\ step_ok (HEnd name) t t' e.
Proof.
  intros B1 B2. assert (TX : text_shown [HEnd name] "") by (eapply (not_text _ _ []); eauto).
  assert (EX : (exists a, HEnd name = HStart name a \/ HEnd name = HSelf name a) \/ HEnd name = HEnd name) by auto.
  unfold tb_close.
  destruct (String.eqb_spec name "table") as [->|N1].
  { do 2 eexists. split; [reflexivity|]. split; [reflexivity|].
    destruct (tag_complete "</table>" "/table") as (C&T&X); [simpl; tauto|].
    split; auto. rewrite T, X. split; [intros x [<-|[]]; simpl; tauto|]. split; auto.
    split; (apply eff_other; [eapply (not_cell _ _ "table"); eauto; discriminate
                             |discriminate|intros x [<-|[]]; split; discriminate]). }
  destruct (String.eqb_spec name "tr") as [->|N2].
  { do 2 eexists. split; [reflexivity|]. split; [reflexivity|].
    destruct (tag_complete "</tr>" "/tr") as (C&T&X); [simpl; tauto|].
    split; auto. rewrite T, X. split; [intros x [<-|[]]; simpl; tauto|]. split; auto.
    split; (apply eff_other; [eapply (not_cell _ _ "tr"); eauto; discriminate
                             |discriminate|intros x [<-|[]]; split; discriminate]). }
  destruct (String.eqb_spec name "th") as [->|N3].
  { cbv zeta. change (tbTh (emit "</th>" t)) with (tbTh t).
    destruct (tag_complete "</th>" "/th") as (C&T&X); [simpl; tauto|].
    remember (tbTh t) as s eqn:S. destruct B1 as [|n s b1 B1].
    - exists (emit "</th>" t), "</th>". split; [reflexivity|]. split; [reflexivity|].
      split; auto. rewrite T, X. split; [intros x [<-|[]]; simpl; tauto|]. split; auto. split.
      + change (tbTh (emit "</th>" t)) with (tbTh t). rewrite <- S. apply eff_close_nil.
      + apply eff_other; [eapply (not_cell _ _ "th"); eauto; discriminate|discriminate|].
        intros x [<-|[]]; split; discriminate.
    - unfold col_span2_helper. cbn [repeat app].
      replace (Z.to_nat (Z.of_nat (Datatypes.S (Datatypes.S n)) - 1)) with (Datatypes.S n) by lia.
      rewrite (pop_th_times (Datatypes.S n) (Z.of_nat (Datatypes.S (Datatypes.S n))) s) by (symmetry; exact S).
      do 2 eexists. split; [reflexivity|]. split.
      { unfold with_th, emit. cbn [tbOut]. rewrite append_assoc. reflexivity. }
      destruct (srep_complete (Datatypes.S (Datatypes.S n)) _ _ C T X) as (C'&T'&X').
      change ("</th>" ++ srep (Datatypes.S n) "</th>") with (srep (Datatypes.S (Datatypes.S n)) "</th>").
      split; auto. rewrite T', X'. split; [intros x I; apply repeat_spec in I; subst; simpl; tauto|]. split; auto.
      split.
      + rewrite <- S. apply (eff_close "th").
      + apply eff_other; [eapply (not_cell _ _ "th"); eauto; discriminate|discriminate|].
        intros x I. apply repeat_spec in I. subst. split; discriminate. }
  destruct (String.eqb_spec name "td") as [->|N4].
  { cbv zeta. change (tbTd (emit "</td>" t)) with (tbTd t).
    destruct (tag_complete "</td>" "/td") as (C&T&X); [simpl; tauto|].
    remember (tbTd t) as s eqn:S. destruct B2 as [|n s b2 B2].
    - exists (emit "</td>" t), "</td>". split; [reflexivity|]. split; [reflexivity|].
      split; auto. rewrite T, X. split; [intros x [<-|[]]; simpl; tauto|]. split; auto. split.
      + apply eff_other; [eapply (not_cell _ _ "td"); eauto; discriminate|discriminate|].
        intros x [<-|[]]; split; discriminate.
      + change (tbTd (emit "</td>" t)) with (tbTd t). rewrite <- S. apply eff_close_nil.
    - unfold col_span2_helper. cbn [repeat app].
      replace (Z.to_nat (Z.of_nat (Datatypes.S (Datatypes.S n)) - 1)) with (Datatypes.S n) by lia.
      rewrite (pop_td_times (Datatypes.S n) (Z.of_nat (Datatypes.S (Datatypes.S n))) s) by (symmetry; exact S).
      do 2 eexists. split; [reflexivity|]. split.
      { unfold with_td, emit. cbn [tbOut]. rewrite append_assoc. reflexivity. }
      destruct (srep_complete (Datatypes.S (Datatypes.S n)) _ _ C T X) as (C'&T'&X').
      change ("</td>" ++ srep (Datatypes.S n) "</td>") with (srep (Datatypes.S (Datatypes.S n)) "</td>").
      split; auto. rewrite T', X'. split; [intros x I; apply repeat_spec in I; subst; simpl; tauto|]. split; auto.
      split.
      + apply eff_other; [eapply (not_cell _ _ "td"); eauto; discriminate|discriminate|].
        intros x I. apply repeat_spec in I. subst. split; discriminate.
      + rewrite <- S. apply (eff_close "td"). }
  exists t, "". split; [reflexivity|]. split; [now rewrite append_nil_r|].
  split; [apply complete_nil|]. split; [intros x []|]. split; auto.
  split; (apply eff_other; [eapply (not_cell _ _ name); eauto|congruence|intros x []]).
Qed.
Lemma token_ok tok t b1 b2 : blocks (tbTh t) b1 -> blocks (tbTd t) b2 ->
  exists t' e b1' b2', tb_token tok t = Ok t' /\ tbOut t' = tbOut t ++ e /\
    blocks (tbTh t') b1' /\ blocks (tbTd t') b2' /\ (plain [tok] -> step_ok tok t t' e).
Proof.
  intros B1 B2.
  assert (BB : forall t' e, step_ok tok t t' e -> exists b1' b2', blocks (tbTh t') b1' /\ blocks (tbTd t') b2').
  { intros t' e (_&_&_&E1&E2). eapply eff_blocks in E1 as (x&X); eauto. eapply eff_blocks in E2 as (y&Y); eauto. }
  destruct tok as [name attrs|name attrs|name|d|]; cbn [tb_token].
  - destruct (open_ok (HStart name attrs) name attrs t) as (t'&e&H1&H2&H3); auto.
    destruct (BB _ _ H3) as (x&y&X&Y). exists t', e, x, y. auto.
  - destruct (open_ok (HSelf name attrs) name attrs t) as (t'&e&H1&H2&H3); auto.
    destruct (BB _ _ H3) as (x&y&X&Y). exists t', e, x, y. auto.
  - destruct (close_ok name t b1 b2) as (t'&e&H1&H2&H3); auto.
    destruct (BB _ _ H3) as (x&y&X&Y). exists t', e, x, y. auto.
  - cbv zeta. pose proof (trim_spec d) as TS.
    assert (NC : forall k, ~ opens_cell k (HText d) /\ HText d <> HEnd k).
    { intro k. split; [intros (a&[H|H])|]; discriminate. }
    destruct (trim_space d) as [|c r] eqn:TR; cbn [nonempty].
    + exists t, "", b1, b2. repeat split; auto; try apply NC; try (intros x []).
      * now rewrite append_nil_r.
      * cbn [text_of]. apply tx_blank; auto. constructor.
      * apply eff_other; try apply NC. intros x [].
      * apply eff_other; try apply NC. intros x [].
    + exists (emit (String c r ++ " ") t), (String c r ++ " "), b1, b2. split; auto. split; auto. split; auto. split; auto.
      intro P. assert (F : free_of "<" (String c r ++ " ")).
      { apply free_of_app. split; [eapply trimmed_free; eauto; apply P; simpl; auto|]. split; [discriminate|exact I]. }
      apply text_complete in F as (C&T&X). split; auto. rewrite T, X. split; [intros x []|]. split.
      * replace (String c r ++ " ") with (String c r ++ " " ++ "") by reflexivity.
        apply tx_text; auto; [discriminate|constructor].
      * split; (apply eff_other; try apply NC; intros x []).
  - exists t, "", b1, b2. split; auto. split; [now rewrite append_nil_r|]. split; auto. split; auto. intros _.
    split; [apply complete_nil|]. split; [intros x []|]. split; [apply tx_other; [discriminate|constructor]|].
    split; (apply eff_other; [intros (a&[H|H]); discriminate|discriminate|intros x []]).
Qed.

(** ** All tokens *)
Definition opnb (k : string) (tok : html_token) : bool :=
  match tok with HStart n _ | HSelf n _ => String.eqb n k | _ => false end.
Definition clsb (k : string) (tok : html_token) : bool :=
  match tok with HEnd n => String.eqb n k | _ => false end.
Lemma opnb_iff k tok : opnb k tok = true <-> opens_cell k tok.
Proof.
  unfold opens_cell. destruct tok; simpl; try (split; [discriminate|intros (a&[H|H]); discriminate]);
    rewrite String.eqb_eq; (split; [intros ->; eauto|intros (a&[H|H]); congruence]).
Qed.
Lemma clsb_iff k tok : clsb k tok = true <-> closes_cell k tok.
Proof.
  unfold closes_cell. destruct tok; simpl; try (split; discriminate). rewrite String.eqb_eq. split; congruence.
Qed.
Definition cells (k : string) (ks : list html_token) : nat :=
  fold_right (fun tok n => match tok with
                           | HStart m a | HSelf m a => if String.eqb m k then span a + n else n
                           | _ => n end)%nat 0%nat ks.
Lemma cells_columns k ks : columns k ks (Z.of_nat (cells k ks)).
Proof.
  induction ks as [|tok ks IH]; [constructor|]. cbn [cells fold_right]. fold (cells k ks).
  assert (O : opnb k tok = false -> columns k (tok :: ks) (Z.of_nat (cells k ks))).
  { intro E. apply co_other; auto. rewrite <- opnb_iff. congruence. }
  destruct tok as [m a|m a|m|d|]; auto.
  - destruct (String.eqb_spec m k) as [->|N].
    + rewrite Nat2Z.inj_add. eapply co_cell; eauto using span_spec.
    + apply O. simpl. now apply String.eqb_neq.
  - destruct (String.eqb_spec m k) as [->|N].
    + rewrite Nat2Z.inj_add. eapply co_cell; eauto using span_spec.
    + apply O. simpl. now apply String.eqb_neq.
Qed.
Notation tdepth k := (depth (opnb k) (clsb k)).
Notation gdepth k := (depth (fun x => String.eqb x k) (fun x => String.eqb x ("/" ++ k))).
Lemma slash_neq k : String.eqb ("/" ++ k) k = false /\ String.eqb k ("/" ++ k) = false.
Proof.
  assert (N : k <> "/" ++ k).
  { intro H. apply (f_equal String.length) in H. rewrite slength_app in H. simpl in H. lia. }
  split; apply String.eqb_neq; congruence.
Qed.
Lemma gdepth_open k n d : gdepth k d (repeat k n) = Some (d + n)%nat.
Proof.
  revert d. induction n as [|n IH]; intro d; cbn [repeat depth]; [f_equal; lia|].
  rewrite String.eqb_refl, IH. f_equal. lia.
Qed.
Lemma gdepth_close k n d : gdepth k (d + n)%nat (repeat ("/" ++ k) n) = Some d.
Proof.
  induction n as [|n IH]; cbn [repeat depth]; [f_equal; lia|].
  rewrite (proj1 (slash_neq k)), String.eqb_refl. rewrite Nat.add_succ_r. exact IH.
Qed.
Lemma gdepth_other k d l : (forall x, In x l -> x <> k /\ x <> "/" ++ k) ->
  gdepth k d l = Some d /\ filter (fun x => String.eqb x k) l = [].
Proof.
  induction l as [|x l IH]; intro H; [split; reflexivity|]. destruct (H x (or_introl eq_refl)) as [H1 H2].
  apply String.eqb_neq in H1, H2. cbn [depth filter]. rewrite H1, H2. apply IH. intros y Y. apply H. now right.
Qed.
Lemma filter_repeat k n : filter (fun x => String.eqb x k) (repeat k n) = repeat k n.
Proof. induction n as [|n IH]; cbn [repeat filter]; auto. rewrite String.eqb_refl. congruence. Qed.
Lemma filter_repeat_close k n : filter (fun x => String.eqb x k) (repeat ("/" ++ k) n) = [].
Proof. induction n as [|n IH]; cbn [repeat filter]; auto. now rewrite (proj1 (slash_neq k)). Qed.
Lemma eff_count k tok s s' tags : eff k tok s s' tags ->
  List.length (filter (fun x => String.eqb x k) tags) = cells k [tok].
Proof.
  intro E. destruct E as [tok attrs s [->| ->]| |n s|tok s tags N1 N2 N3].
  - rewrite filter_repeat, repeat_length. simpl. rewrite String.eqb_refl. lia.
  - rewrite filter_repeat, repeat_length. simpl. rewrite String.eqb_refl. lia.
  - cbn [filter]. rewrite (proj1 (slash_neq k)). reflexivity.
  - now rewrite filter_repeat_close.
  - rewrite (proj2 (gdepth_other k 0 tags N3)). destruct tok; simpl; auto;
      (destruct (String.eqb_spec name k) as [->|]; [exfalso; apply N1; unfold opens_cell; eauto|auto]).
Qed.
Lemma eff_depth k tok s s' tags b d d' : eff k tok s s' tags -> blocks s b -> (b <= d)%nat ->
  tdepth k d [tok] = Some d' ->
  gdepth k (d + List.length s) tags = Some (d' + List.length s')%nat /\ exists b', blocks s' b' /\ (b' <= d')%nat.
Proof.
  intros E B L D. destruct E as [tok attrs s K| |n s|tok s tags N1 N2 N3].
  - assert (d' = S d) as ->.
    { cbn [depth] in D. rewrite (proj2 (opnb_iff k tok)) in D by (unfold opens_cell; eauto). congruence. }
    rewrite gdepth_open, app_length, repeat_length. pose proof (span_pos attrs) as SP. split; [f_equal; lia|].
    destruct (span attrs) as [|[|n]]; [lia| |].
    + exists b. split; auto.
    + exists (S b). split; [|lia]. apply (bl_cons n). exact B.
  - cbn [depth opnb clsb] in D. rewrite String.eqb_refl in D. destruct d as [|d]; [discriminate|].
    injection D; intros <-. split.
    + cbn [List.length]. rewrite !Nat.add_0_r. replace (S d) with (d + 1)%nat by lia. apply (gdepth_close k 1 d).
    + exists 0%nat. split; [constructor|lia].
  - cbn [depth opnb clsb] in D. rewrite String.eqb_refl in D. destruct d as [|d]; [discriminate|].
    injection D; intros <-. split.
    + rewrite app_length, repeat_length.
      replace (S d + (S n + List.length s))%nat with ((d + List.length s) + S (S n))%nat by lia. apply gdepth_close.
    + remember (repeat (Z.of_nat (S (S n))) (S n) ++ s)%list as u eqn:U.
      destruct B as [|n' s0 b' B']; [discriminate|]. cbn [repeat app] in U. injection U; intros H1 H2.
      assert (n' = n) as -> by lia. apply app_inv_head in H1. subst. exists b'. split; auto. lia.
  - assert (d' = d) as ->.
    { cbn [depth] in D. destruct (opnb k tok) eqn:O; [apply opnb_iff in O; contradiction|].
      destruct (clsb k tok) eqn:C; [apply clsb_iff in C; contradiction|]. congruence. }
    split; [apply gdepth_other; auto|]. eauto.
Qed.
Lemma text_shown_app ks1 ks2 s1 s2 : text_shown ks1 s1 -> text_shown ks2 s2 -> text_shown (ks1 ++ ks2)%list (s1 ++ s2).
Proof.
  induction 1; intro K; cbn [app append]; auto.
  - apply tx_blank; auto.
  - rewrite append_assoc. cbn [append]. apply (tx_text d t); auto.
  - apply tx_other; auto.
Qed.
Lemma loop_ok ks : forall t b1 b2, blocks (tbTh t) b1 -> blocks (tbTd t) b2 ->
  exists t' e, tb_loop ks t = Ok t' /\ tbOut t' = tbOut t ++ e /\
    (plain ks ->
      complete e /\ (forall x, In x (tags_of e) -> In x table_markup) /\ text_shown ks (text_of e) /\
      (forall k st, (k = "th" /\ st = tbTh) \/ (k = "td" /\ st = tbTd) ->
         List.length (filter (fun x => String.eqb x k) (tags_of e)) = cells k ks /\
         forall b d d', blocks (st t) b -> (b <= d)%nat -> tdepth k d ks = Some d' ->
           gdepth k (d + List.length (st t)) (tags_of e) = Some (d' + List.length (st t'))%nat /\
           exists b', blocks (st t') b' /\ (b' <= d')%nat)).
Proof.
  induction ks as [|tok ks IH]; intros t b1 b2 B1 B2; cbn [tb_loop].
  - exists t, "". split; auto. split; [now rewrite append_nil_r|]. intros _. split; [apply complete_nil|].
    split; [intros x []|]. split; [constructor|]. intros k st K. split; [reflexivity|].
    intros b d d' B L D. injection D; intros <-. split; [reflexivity|eauto].
  - destruct (token_ok tok t b1 b2 B1 B2) as (t1&e1&c1&c2&H1&H2&C1&C2&H3).
    destruct (IH t1 c1 c2 C1 C2) as (t'&e&K1&K2&K3). rewrite H1. cbn [bind].
    exists t', (e1 ++ e). split; auto. split; [rewrite K2, H2; apply append_assoc|].
    intro P. destruct H3 as (A1&A2&A3&A4).
    { intros d [D|[]]. apply P. left. exact D. }
    destruct K3 as (D1&D2&D3&D4).
    { intros d D. apply P. right. exact D. }
    destruct (A1 e) as [T X]. split; [now apply complete_app|]. rewrite T, X. split; [|split].
    + intros x I. apply in_app_iff in I. destruct I; auto.
    + apply (text_shown_app [tok]); auto.
    + intros k st K. specialize (D4 k st K) as [F1 F2].
      assert (E : eff k tok (st t) (st t1) (tags_of e1)) by (destruct A4; destruct K as [[-> ->]|[-> ->]]; auto).
      rewrite filter_app, app_length, F1, (eff_count _ _ _ _ _ E). split.
      { cbn [cells fold_right]. fold (cells k ks). destruct tok; auto; destruct (String.eqb name k); lia. }
      intros b d d' B L D. change (tok :: ks) with ([tok] ++ ks)%list in D. rewrite depth_app in D.
      destruct (tdepth k d [tok]) as [d1|] eqn:DD; [|discriminate].
      destruct (eff_depth _ _ _ _ _ _ _ _ E B L DD) as (G1&b'&G2&G3).
      destruct (F2 b' d1 d' G2 G3 D) as (G4&G5). split; auto. rewrite depth_app, G1. exact G4.
Qed.

(** ** Facts *)
Lemma text_block_ok ks : exists h, text_block ks = Ok h.
Proof.
  unfold text_block. destruct (loop_ok ks (TB "" 0 [] []) 0 0) as (t&e&H&_); try constructor.
  rewrite H. simpl. eauto.
Qed.
Lemma is_percent_iff c : is_percent c = true <-> percentage c.
Proof. unfold is_percent, percentage. rewrite andb_true_iff, !String.eqb_eq. reflexivity. Qed.
Lemma sig_figs_iff e f c g x : sig_figs e (fXMLInner f) (fPrecision f) c g = Some x <->
  exists h co t, x = FactExpression h co t "" /\ written e f c g h co t.
Proof.
  unfold sig_figs, written, render_numeric. destruct (is_percent c) eqn:P.
  - apply is_percent_iff in P. destruct (re_percent e (fXMLInner f)) as [v|].
    + destruct (re_digits e (fPrecision f) v g) as [[[h co] t]|] eqn:D.
      * split.
        -- intro H. injection H; intros <-. exists h, co, t. split; eauto 8.
        -- intros (h'&co'&t'&->&[(_&v'&E1&E2)|[N _]]); [|contradiction]. congruence.
      * split; [discriminate|]. intros (h'&co'&t'&->&[(_&v'&E1&E2)|[N _]]); [|contradiction]. congruence.
    + split; [discriminate|]. intros (h'&co'&t'&->&[(_&v'&E1&E2)|[N _]]); [|contradiction]. congruence.
  - assert (NP : ~ percentage c) by (rewrite <- is_percent_iff; congruence).
    destruct (re_digits e (fPrecision f) (fXMLInner f) g) as [[[h co] t]|] eqn:D.
    + split.
      * intro H. injection H; intros <-. exists h, co, t. split; eauto 8.
      * intros (h'&co'&t'&->&[[N _]|(_&E)]); [contradiction|]. congruence.
    + split; [discriminate|]. intros (h'&co'&t'&->&[[N _]|(_&E)]); [contradiction|]. congruence.
Qed.
Lemma nonempty_false s : nonempty s = false <-> s = "".
Proof. destruct s; simpl; split; congruence. Qed.
Lemma nonempty_true s : nonempty s = true <-> s <> "".
Proof. destruct s; simpl; split; congruence. Qed.
Lemma render_fact_iff g e f x : render_fact g e f = Ok x <-> shown_fact g e f x.
Proof.
  unfold render_fact, render_text_block. split.
  - destruct (re_concept e (fHref f)) as [c|] eqn:C.
    2:{ intro H. injection H; intros <-. now apply sf_unknown. }
    destruct (String.eqb_spec (nlocal (cType c)) TextBlockItemType) as [T|T].
    { destruct (text_block_ok (re_html e (fXMLInner f))) as (h&H). rewrite H. cbn [bind]. intro K.
      injection K; intros <-. eapply sf_block; eauto. }
    cbn [bind]. destruct (Z.eqb_spec (fPrecision f) Precisionless) as [P|P].
    { intro H. injection H; intros <-. eapply sf_text; eauto. }
    destruct (re_measurement e (fUnitRef f)) as [num den] eqn:M.
    destruct (sig_figs e (fXMLInner f) (fPrecision f) c g) as [y|] eqn:S.
    2:{ intro H. injection H; intros <-. eapply sf_text; eauto. right. intros h co t W.
        assert (sig_figs e (fXMLInner f) (fPrecision f) c g = Some (FactExpression h co t "")) by (apply sig_figs_iff; eauto).
        congruence. }
    apply sig_figs_iff in S as (h&co&t&->&W). cbn [feHead feCore feTail].
    intro H. injection H; intros <-.
    set (before := match num with Some m => if nonempty (mSymbol m) then mSymbol m ++ " " else "" | None => "" end).
    set (sign := if is_percent c then "%" else "").
    set (after := match num with
      | None => ""
      | Some m => " " ++ (if negb (nonempty (mSymbol m)) && negb (is_percent c) then mUnitName m else "") ++
          match den with None => "" | Some d => "/" ++ (if nonempty (mSymbol d) then mSymbol d else mUnitName d) end
      end).
    match goal with |- shown_fact _ _ _ (FactExpression ?a _ ?b _) =>
      replace a with (before ++ h); [replace b with (t ++ sign ++ after)|] end.
    + apply sf_number with (c := c); auto; rewrite ?M; cbn [fst snd].
      * unfold before. destruct num as [m|]; [|constructor].
        destruct (nonempty (mSymbol m)) eqn:E; [apply ub_symbol; now apply nonempty_true|apply ub_name; now apply nonempty_false].
      * unfold after. destruct num as [m|]; [|constructor]. apply ua_some.
        -- destruct (nonempty (mSymbol m)) eqn:E; cbn [negb andb].
           ++ right. split; auto. left. now apply nonempty_true.
           ++ apply nonempty_false in E. destruct (is_percent c) eqn:Q; cbn [negb].
              ** right. split; auto. right. now apply is_percent_iff.
              ** left. split; auto. split; auto. rewrite <- is_percent_iff. congruence.
        -- destruct den as [d|]; auto. right. exists d. eexists. split; auto. split; [|reflexivity].
           destruct (nonempty (mSymbol d)) eqn:E; [apply sn_symbol; now apply nonempty_true|apply sn_name; now apply nonempty_false].
      * unfold sign. destruct (is_percent c) eqn:Q.
        -- left. split; auto. now apply is_percent_iff.
        -- right. split; auto. rewrite <- is_percent_iff. congruence.
    + unfold sign, after. destruct num as [m|]; destruct (is_percent c); destruct den as [d|];
        cbn [append negb]; rewrite ?andb_false_r, ?append_nil_r, ?append_assoc; auto;
        destruct (nonempty (mSymbol m)); cbn [append negb andb]; rewrite ?append_nil_r, ?append_assoc; reflexivity.
    + unfold before. destruct num as [m|]; auto. destruct (nonempty (mSymbol m)); auto. now rewrite append_assoc.
  - intro H. inversion H as [C|c html C T B|c C T W|c h co t b a C T P W B A sign S]; subst; rewrite C; auto.
    + change TextBlockItemType with "textBlockItemType". rewrite T, String.eqb_refl, B. reflexivity.
    + destruct (String.eqb_spec (nlocal (cType c)) TextBlockItemType) as [T'|_]; [now apply T in T'|]. cbn [bind].
      destruct W as [P|W]; [rewrite P; reflexivity|].
      destruct (fPrecision f =? Precisionless)%Z; auto. destruct (re_measurement e (fUnitRef f)) as [num den].
      destruct (sig_figs e (fXMLInner f) (fPrecision f) c g) as [y|] eqn:S; auto.
      apply sig_figs_iff in S as (h&co&t&_&S). now apply W in S.
    + destruct (String.eqb_spec (nlocal (cType c)) TextBlockItemType) as [T'|_]; [now apply T in T'|]. cbn [bind].
      destruct (Z.eqb_spec (fPrecision f) Precisionless) as [P'|_]; [now apply P in P'|].
      destruct (re_measurement e (fUnitRef f)) as [num den]. cbn [fst snd] in *.
      rewrite (proj2 (sig_figs_iff e f c g (FactExpression h co t ""))) by eauto. cbn [feHead feCore feTail].
      assert (PC : (is_percent c = true /\ sign = "%") \/ (is_percent c = false /\ sign = "")).
      { destruct S as [[S ->]|[S ->]]; [left; split; auto; now apply is_percent_iff|right].
        split; auto. rewrite <- is_percent_iff in S. now destruct (is_percent c). }
      f_equal. f_equal.
      * destruct B as [|m N|m N]; auto.
        -- apply nonempty_true in N. rewrite N, append_assoc. reflexivity.
        -- rewrite N. reflexivity.
      * destruct A as [d|m d own per O D].
        -- destruct PC as [[-> ->]|[-> ->]]; cbn [append]; rewrite ?append_nil_r; auto.
        -- assert (OO : (if negb (nonempty (mSymbol m)) && negb (is_percent c) then mUnitName m else "") = own).
           { destruct O as [(E&NP&->)|[[E|E] ->]].
             - rewrite E. rewrite <- is_percent_iff in NP. destruct (is_percent c); [congruence|reflexivity].
             - apply nonempty_true in E. rewrite E. reflexivity.
             - apply is_percent_iff in E. rewrite E, andb_false_r. reflexivity. }
           assert (DD : match d with None => "" | Some dm => "/" ++ (if nonempty (mSymbol dm) then mSymbol dm else mUnitName dm) end = per).
           { destruct D as [[-> ->]|(dm&s&->&[N|N]&->)]; auto.
             - apply nonempty_true in N. now rewrite N.
             - now rewrite N. }
           rewrite <- OO, <- DD. clear - PC.
           destruct PC as [[-> ->]|[-> ->]]; destruct d as [dm|]; cbn [append negb]; rewrite ?andb_false_r, ?append_nil_r, ?append_assoc; auto;
             destruct (nonempty (mSymbol m)); cbn [append negb andb]; rewrite ?append_nil_r, ?append_assoc; reflexivity.
Qed.
