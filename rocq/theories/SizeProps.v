(** * SizeProps: C158 (the rendering of a text block is not much longer than the text block) *)
From Coq Require Import ZArith Lia.
From Verif Require Import GoBase GoSpec GoFacts AttrModel SchemaModel InstanceModel InstanceSpec InstanceProofs
  FactModel FactSpec FactProofs SizeSpec.
Local Open Scope string_scope.
Local Open Scope Z_scope.

Lemma length_of_app a b : length_of (a ++ b) = length_of a + length_of b.
Proof. unfold length_of. rewrite slength_app. lia. Qed.
Lemma length_of_nonneg a : 0 <= length_of a.
Proof. unfold length_of. lia. Qed.

Ltac lens :=
  repeat match goal with
  | |- context [length_of (String ?a ?b)] => let v := eval vm_compute in (length_of (String a b)) in change (length_of (String a b)) with v
  | H : context [length_of (String ?a ?b)] |- _ => let v := eval vm_compute in (length_of (String a b)) in change (length_of (String a b)) with v in H
  end.

Section Bound.
  Variable B : Z.
  Hypothesis HB : 1 <= B.
  Definition small (t : tb_state) : Prop := (forall z, In z (tbTh t) -> z <= B) /\ (forall z, In z (tbTd t) -> z <= B).
  Definition grows (c : Z) (t t' : tb_state) : Prop := small t' /\ length_of (tbOut t') <= length_of (tbOut t) + c.
  Lemma emit_grows s t : small t -> grows (length_of s) t (emit s t).
  Proof. intros [H1 H2]. split; [split; auto|]. cbn [tbOut emit]. rewrite length_of_app. lia. Qed.
  Lemma times_grows (cb : tb_state -> res tb_state) c :
    (forall t t', small t -> cb t = Ok t' -> grows c t t') ->
    forall n t t', small t -> times n cb t = Ok t' -> grows (c * Z.of_nat n) t t'.
  Proof.
    intro H. induction n as [|n IH]; intros t t' S E.
    - cbn [times] in E. injection E as <-. split; auto. lia.
    - cbn [times] in E. destruct (cb t) as [t1|m|] eqn:C; try discriminate E. cbn [bind] in E.
      destruct (H t t1 S C) as [S1 L1]. destruct (IH t1 t' S1 E) as [S2 L2]. split; auto. lia.
  Qed.
  Lemma push_th_grows z t t' : z <= B -> small t -> push_th z t = Ok t' -> grows 4 t t'.
  Proof.
    intros Z [H1 H2] E. unfold push_th in E. injection E as <-. split.
    - split; auto. cbn [emit tbTh]. intros x [<-|I]; auto.
    - cbn [emit tbOut]. rewrite length_of_app. lens; lia.
  Qed.
  Lemma push_td_grows z t t' : z <= B -> small t -> push_td z t = Ok t' -> grows 4 t t'.
  Proof.
    intros Z [H1 H2] E. unfold push_td in E. injection E as <-. split.
    - split; auto. cbn [emit tbTd]. intros x [<-|I]; auto.
    - cbn [emit tbOut]. rewrite length_of_app. lens; lia.
  Qed.
  Lemma pop_th_grows z t t' : small t -> pop_th z t = Ok t' -> grows 5 t t'.
  Proof.
    intros [H1 H2] E. unfold pop_th in E. destruct (tbTh t) as [|x r] eqn:T; [discriminate|]. injection E as <-. split.
    - split; auto. cbn [emit tbTh]. intros y I. apply H1. now right.
    - cbn [emit tbOut]. rewrite length_of_app. lens; lia.
  Qed.
  Lemma pop_td_grows z t t' : small t -> pop_td z t = Ok t' -> grows 5 t t'.
  Proof.
    intros [H1 H2] E. unfold pop_td in E. destruct (tbTd t) as [|x r] eqn:T; [discriminate|]. injection E as <-. split.
    - split; auto. cbn [emit tbTd]. intros y I. apply H2. now right.
    - cbn [emit tbOut]. rewrite length_of_app. lens; lia.
  Qed.
  Lemma push_grows (push : Z -> tb_state -> res tb_state) attrs t t' :
    (forall z t t', z <= B -> small t -> push z t = Ok t' -> grows 4 t t') -> Z.of_nat (span attrs) <= B -> small t ->
    col_span_helper attrs push t = Ok t' -> grows (4 * (B - 1)) t t'.
  Proof.
    intros P L S E. rewrite span_push in E by reflexivity.
    destruct (times_grows (push (Z.of_nat (span attrs))) 4 (fun t t' St Et => P _ t t' L St Et) _ _ _ S E) as [S' L'].
    split; auto. pose proof (span_pos attrs). lia.
  Qed.
  Lemma pop_grows (pop : Z -> tb_state -> res tb_state) s t t' :
    (forall z t t', small t -> pop z t = Ok t' -> grows 5 t t') -> (forall z, In z s -> z <= B) -> small t ->
    col_span2_helper s pop t = Ok t' -> grows (5 * (B - 1)) t t'.
  Proof.
    intros P L S E. destruct s as [|z s]; cbn [col_span2_helper] in E.
    - injection E as <-. split; auto. lia.
    - destruct (times_grows (pop z) 5 (fun t t' St Et => P _ t t' St Et) _ _ _ S E) as [S' L']. split; auto.
      pose proof (L z (or_introl eq_refl)). destruct (Z_lt_le_dec z 1); [|lia].
      replace (Z.to_nat (z - 1)) with 0%nat in L' by lia. lia.
  Qed.
  Lemma block_long name : mem String.eqb name block_elems = true -> 1 <= length_of name.
  Proof.
    intro M. apply (mem_In String.eqb String.eqb_eq) in M. cbn [In block_elems] in M.
    repeat (destruct M as [<-|M]; [vm_compute; discriminate|]). destruct M.
  Qed.
  Lemma open_grows name attrs t t' : Z.of_nat (span attrs) <= B -> small t -> tb_open name attrs t = Ok t' ->
    grows (4 * B * (2 + length_of name)) t t'.
  Proof.
    intros L S E. pose proof (length_of_nonneg name) as NN. unfold tb_open in E.
    assert (Weak : forall c t0, grows c t t0 -> c <= 4 * B * (2 + length_of name) -> grows (4 * B * (2 + length_of name)) t t0).
    { intros c t0 [G1 G2] C. split; auto. lia. }
    destruct (String.eqb_spec name "table") as [->|N1].
    { cbn [bind] in E. change (mem String.eqb "table" block_elems) with false in E. rewrite andb_false_r in E. injection E as <-.
      apply (Weak 7); [|lens; lia]. destruct S. split; [split; auto|]. cbn [tbOut emit]. rewrite length_of_app. lens; lia. }
    destruct (String.eqb_spec name "tr") as [->|N2].
    { cbn [bind] in E. change (mem String.eqb "tr" block_elems) with false in E. rewrite andb_false_r in E. injection E as <-.
      apply (Weak 4); [|lens; lia]. exact (emit_grows "<tr>" t S). }
    destruct (String.eqb_spec name "th") as [->|N3].
    { destruct (emit_grows "<th>" t S) as [S1 L1].
      destruct (col_span_helper attrs push_th (emit "<th>" t)) as [t1|m|] eqn:C; try discriminate E.
      destruct (push_grows push_th attrs _ _ push_th_grows L S1 C) as [S2 L2]. cbn [bind] in E.
      change (mem String.eqb "th" block_elems) with false in E. rewrite andb_false_r in E. injection E as <-.
      apply (Weak (4 * B)); [|lens; lia]. split; auto. lens. lia. }
    destruct (String.eqb_spec name "td") as [->|N4].
    { destruct (emit_grows "<td>" t S) as [S1 L1].
      destruct (col_span_helper attrs push_td (emit "<td>" t)) as [t1|m|] eqn:C; try discriminate E.
      destruct (push_grows push_td attrs _ _ push_td_grows L S1 C) as [S2 L2]. cbn [bind] in E.
      change (mem String.eqb "td" block_elems) with false in E. rewrite andb_false_r in E. injection E as <-.
      apply (Weak (4 * B)); [|lens; lia]. split; auto. lens. lia. }
    cbn [bind] in E. destruct (tbBr t <=? 0)%Z; cbn [andb] in E.
    - destruct (mem String.eqb name block_elems) eqn:M; injection E as <-.
      + apply block_long in M. apply (Weak 12); [exact (emit_grows "<br /><br />" t S)|nia].
      + apply (Weak 0); [split; auto; lia|nia].
    - injection E as <-. apply (Weak 0); [split; auto; lia|nia].
  Qed.
  Lemma close_grows name t t' : small t -> tb_close name t = Ok t' -> grows (4 * B * (3 + length_of name)) t t'.
  Proof.
    intros S E. pose proof (length_of_nonneg name) as NN. unfold tb_close in E.
    assert (Weak : forall c t0, grows c t t0 -> c <= 4 * B * (3 + length_of name) -> grows (4 * B * (3 + length_of name)) t t0).
    { intros c t0 [G1 G2] C. split; auto. lia. }
    destruct (String.eqb_spec name "table") as [->|N1].
    { injection E as <-. apply (Weak 8); [|lens; lia]. destruct S. split; [split; auto|].
      cbn [tbOut emit]. rewrite length_of_app. lens; lia. }
    destruct (String.eqb_spec name "tr") as [->|N2].
    { injection E as <-. apply (Weak 5); [|lens; lia]. exact (emit_grows "</tr>" t S). }
    destruct (String.eqb_spec name "th") as [->|N3].
    { cbv zeta in E. destruct (emit_grows "</th>" t S) as [S1 L1].
      destruct (pop_grows pop_th _ _ _ pop_th_grows (proj1 S1) S1 E) as [S2 L2].
      apply (Weak (5 * B)); [|lens; lia]. split; auto. lens. lia. }
    destruct (String.eqb_spec name "td") as [->|N4].
    { cbv zeta in E. destruct (emit_grows "</td>" t S) as [S1 L1].
      destruct (pop_grows pop_td _ _ _ pop_td_grows (proj2 S1) S1 E) as [S2 L2].
      apply (Weak (5 * B)); [|lens; lia]. split; auto. lens. lia. }
    injection E as <-. apply (Weak 0); [split; auto; lia|nia].
  Qed.
  Lemma trim_shorter d : length_of (trim_space d) <= length_of d.
  Proof.
    destruct (trim_spec d) as (a&b&E&_). pose proof (f_equal length_of E) as L. rewrite !length_of_app in L.
    pose proof (length_of_nonneg a). pose proof (length_of_nonneg b). lia.
  Qed.
  Lemma token_grows tok t t' :
    (forall name attrs, tok = HStart name attrs \/ tok = HSelf name attrs -> Z.of_nat (span attrs) <= B) ->
    small t -> tb_token tok t = Ok t' -> grows (4 * B * length_of (written tok)) t t'.
  Proof.
    intros L S E.
    assert (O : forall name attrs, tok = HStart name attrs \/ tok = HSelf name attrs -> tb_open name attrs t = Ok t' ->
                grows (4 * B * length_of (written tok)) t t').
    { intros name attrs K E'. destruct (open_grows name attrs t t' (L name attrs K) S E') as [S' L']. split; auto.
      assert (W : 2 + length_of name <= length_of (written tok)).
      { destruct K as [->| ->]; cbn [written]; rewrite !length_of_app;
          pose proof (length_of_nonneg (fold_right (fun a s => " " ++ fst a ++ "=" ++ snd a ++ s)%string "" attrs));
          change (length_of "<") with 1; change (length_of ">") with 1; lia. }
      nia. }
    destruct tok as [name attrs|name attrs|name|d|]; cbn [tb_token] in E.
    - apply (O name attrs); auto.
    - apply (O name attrs); auto.
    - destruct (close_grows name t t' S E) as [S' L']. split; auto. cbn [written]. rewrite !length_of_app.
      change (length_of "</") with 2. change (length_of ">") with 1. replace (2 + (length_of name + 1)) with (3 + length_of name) by lia. exact L'.
    - cbv zeta in E. pose proof (trim_shorter d) as T. cbn [written]. pose proof (length_of_nonneg d).
      destruct (trim_space d) as [|c r]; cbn [nonempty] in E; injection E as <-.
      + split; auto. nia.
      + destruct (emit_grows (String c r ++ " ") t S) as [S' L']. split; auto. rewrite length_of_app in L'.
        change (length_of " ") with 1 in L'.
        assert (P : 1 <= length_of (String c r)) by (unfold length_of; cbn [String.length]; lia).
        assert (Q : 4 * length_of d <= 4 * B * length_of d) by nia. cbn [append] in L'. lia.
    - injection E as <-. split; auto. cbn. lia.
  Qed.
  Lemma loop_grows ks : no_wider_than B ks -> forall t t', small t -> tb_loop ks t = Ok t' -> grows (4 * B * size ks) t t'.
  Proof.
    induction ks as [|k ks IH]; intros W t t' S E; cbn [tb_loop] in E.
    - injection E as <-. split; auto. cbn. lia.
    - destruct (tb_token k t) as [t1|m|] eqn:K; try discriminate E. cbn [bind] in E.
      destruct (token_grows k t t1) as [S1 L1]; auto.
      { intros name attrs H. apply (W k name attrs); auto; [now left|apply span_spec]. }
      destruct (IH) with (t := t1) (t' := t') as [S2 L2]; auto.
      { intros x name attrs m I. apply W. now right. }
      split; auto. cbn [size fold_right]. fold (size ks). lia.
  Qed.
End Bound.

(** ** C158 *)

(** If no cell spans more than [n] columns, the rendering is at most [4 * n] times as long as the text block. *)
Theorem C158_partial : forall n ks html, 1 <= n -> no_wider_than n ks -> text_block ks = Ok html ->
  length_of html <= 4 * n * size ks.
Proof.
  intros n ks html N W E. unfold text_block in E.
  destruct (tb_loop ks (TB "" 0 [] [])) as [t|m|] eqn:L; try discriminate E. cbn [bind] in E. injection E as <-.
  apply (loop_grows n N ks W) in L as [_ L]; [exact L|]. split; intros z [].
Qed.
Print Assumptions C158_partial.

Lemma length_srep n s : length_of (srep n s) = Z.of_nat n * length_of s.
Proof. induction n as [|n IH]; cbn [srep]; [reflexivity|]. rewrite length_of_app, IH. lia. Qed.
(** one cell *)
Lemma one_cell v z : atoi v = Some z -> 1 <= z ->
  exists html, text_block [HStart "td" [("colspan", v)]] = Ok html /\ length_of html = 4 * z.
Proof.
  intros A Z.
  assert (S : Z.of_nat (span [("colspan", v)]) = z) by (unfold span; cbn [mget]; rewrite String.eqb_refl, A; lia).
  remember [("colspan", v)] as attrs eqn:Ea. clear Ea.
  unfold text_block. cbn [tb_loop tb_token]. unfold tb_open.
  change (String.eqb "td" "table") with false. change (String.eqb "td" "tr") with false.
  change (String.eqb "td" "th") with false. change (String.eqb "td" "td") with true. cbv iota.
  rewrite span_push by reflexivity. rewrite push_td_times. cbn [bind].
  change (mem String.eqb "td" block_elems) with false. rewrite andb_false_r. eexists. split; [reflexivity|].
  cbn [with_td tbOut emit]. rewrite !length_of_app, length_srep. change (length_of "") with 0. change (length_of "<td>") with 4.
  pose proof (span_pos attrs). lia.
Qed.
(** [<td colspan=1000000000000000000>] *)
Theorem C158_refuted : exists ks html, text_block ks = Ok html /\ size ks < 40 /\ 10 ^ 18 < length_of html.
Proof.
  destruct (one_cell "1000000000000000000" (10 ^ 18)) as (html&E&L); [vm_compute; reflexivity|lia|].
  exists [HStart "td" [("colspan", "1000000000000000000")]], html. split; [exact E|]. split; [vm_compute; reflexivity|]. rewrite L. lia.
Qed.
Print Assumptions C158_refuted.

(** A table with a cell that spans two columns *)
Example C158_example : let ks := [HStart "table" []; HStart "td" [("colspan", "2")]; HText "a"; HEnd "td"; HEnd "table"] in
  no_wider_than 2 ks /\ exists html, text_block ks = Ok html /\ length_of html = 35 /\ size ks = 35.
Proof.
  cbv zeta. split.
  - assert (H : forall attrs m, spans attrs m -> m = Z.of_nat (span attrs)).
    { intros attrs m S. pose proof (span_spec attrs) as S'.
      destruct S as [(v&z&F&I&->)|[N ->]]; destruct S' as [(v'&z'&F'&I'&E')|[N' E']]; rewrite E'.
      - assert (("colspan", v) = ("colspan", v')) as E by (eapply first_such_unique; eauto). injection E as <-.
        apply atoi_iff in I, I'. congruence.
      - now elim (N' v z F).
      - now elim (N v' z' F').
      - reflexivity. }
    intros t name attrs m I K S. apply H in S as ->. cbn [In] in I.
    destruct I as [<-|[<-|[<-|[<-|[<-|[]]]]]]; destruct K as [K|K]; try discriminate K; injection K as <- <-; vm_compute; discriminate.
  - eexists. split; [vm_compute; reflexivity|]. split; vm_compute; reflexivity.
Qed.
