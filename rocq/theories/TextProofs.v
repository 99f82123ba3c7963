(** * TextProofs: lemmas for C151 *)
From Coq Require Import String List Bool Arith Lia ZArith.
From Verif Require Import GoBase GoSpec GoFacts InstanceModel InstanceSpec InstanceProofs FactModel FactSpec FactProofs TextSpec.
Import ListNotations.
Local Open Scope string_scope.

Lemma tb_loop_app a b t : tb_loop (a ++ b) t = do t' <- tb_loop a t; tb_loop b t'.
Proof. revert t. induction a as [|k a IH]; intro t; cbn [tb_loop app]; auto. destruct (tb_token k t); cbn [bind]; auto. Qed.
Lemma emit_nil t : emit "" t = t.
Proof. destruct t. unfold emit. cbn. now rewrite append_nil_r. Qed.
Lemma emit_app a b t : emit b (emit a t) = emit (a ++ b) t.
Proof. unfold emit. cbn. now rewrite append_assoc. Qed.
Lemma srep_copies n s : copies s (Z.of_nat n) (srep n s).
Proof.
  induction n as [|n IH]; [constructor|]. rewrite Nat2Z.inj_succ. unfold Z.succ. cbn [srep]. now constructor.
Qed.
Lemma spans_span attrs n : spans attrs n -> n = Z.of_nat (span attrs).
Proof.
  intro S. pose proof (span_spec attrs) as S'.
  assert (U : forall (P : string * string -> Prop) l x y, first_such P l x -> first_such P l y -> x = y).
  { intros P l x y (l1&l2&E&P1&N1) (m1&m2&E'&P2&N2). subst l. revert m1 E' N2.
    induction l1 as [|a l1 IH]; intros [|b m1] E' N2; cbn in E'.
    - congruence.
    - injection E' as -> _. exfalso. apply (N2 b); [now left|exact P1].
    - injection E' as <- _. exfalso. apply (N1 a); [now left|exact P2].
    - injection E' as <- E'. eapply IH; eauto; intros z Z; [apply N1|apply N2]; now right. }
  assert (I : forall v z z', int_literal v z -> int_literal v z' -> z = z').
  { intros v z z'. rewrite <- !InstanceProofs.atoi_iff. congruence. }
  destruct S as [(v&z&F&L&->)|[N ->]], S' as [(v'&z'&F'&L'&E)|[N' E]]; rewrite E; auto.
  - pose proof (U _ _ _ _ F F') as X. injection X as <-. now rewrite (I _ _ _ L L').
  - exfalso. eapply N'; eauto.
  - exfalso. eapply N; eauto.
Qed.

Definition in_tables (t : tb_state) : bool := (0 <? tbBr t)%Z.
Lemma paragraph_iff n : mem String.eqb n block_elems = true <-> paragraph n.
Proof. apply (mem_In String.eqb seqP). Qed.
Lemma open_plain n attrs t : n <> "table" -> ~ cell n -> exists s, opening (in_tables t) n s /\ tb_open n attrs t = Ok (emit s t).
Proof.
  intros NT NC. unfold tb_open, in_tables. destruct (String.eqb_spec n "table") as [->|_]; [congruence|].
  destruct (String.eqb_spec n "tr") as [->|NR].
  { exists "<tr>". split; [now constructor|]. cbn [bind]. replace (mem String.eqb "tr" block_elems) with false by reflexivity. now rewrite andb_false_r. }
  destruct (String.eqb_spec n "th") as [->|_]; [exfalso; apply NC; now left|].
  destruct (String.eqb_spec n "td") as [->|_]; [exfalso; apply NC; now right|]. cbn [bind].
  rewrite Z.ltb_antisym. destruct (tbBr t <=? 0)%Z eqn:B; cbn [andb negb].
  - destruct (mem String.eqb n block_elems) eqn:M.
    + exists "<br /><br />". split; auto. apply op_paragraph; auto. now apply paragraph_iff.
    + exists "". split; [|now rewrite emit_nil]. apply op_other; auto. rewrite <- paragraph_iff. intros [X _]. congruence.
  - exists "". split; [|now rewrite emit_nil]. apply op_other; auto. intros [_ X]. discriminate X.
Qed.
Lemma close_plain n t : n <> "table" -> ~ cell n -> exists s, closing n s /\ tb_close n t = Ok (emit s t).
Proof.
  intros NT NC. unfold tb_close. destruct (String.eqb_spec n "table") as [->|_]; [congruence|].
  destruct (String.eqb_spec n "tr") as [->|NR]; [exists "</tr>"; split; [now constructor|reflexivity]|].
  destruct (String.eqb_spec n "th") as [->|_]; [exfalso; apply NC; now left|].
  destruct (String.eqb_spec n "td") as [->|_]; [exfalso; apply NC; now right|].
  exists "". split; [now constructor|]. now rewrite emit_nil.
Qed.
Lemma lone_ok k t : may_be_lone k -> exists s, lone (in_tables t) k s /\ tb_token k t = Ok (emit s t).
Proof.
  destruct k as [n attrs|n attrs|n|d|]; cbn [may_be_lone tb_token].
  - intros [NT NC]. destruct (open_plain n attrs t NT NC) as (s&O&E). exists s. split; auto. now constructor.
  - intros [NT NC]. destruct (open_plain n attrs t NT NC) as (s&O&E). exists s. split; auto. now constructor.
  - intros [NT NC]. destruct (close_plain n t NT NC) as (s&O&E). exists s. split; auto. now constructor.
  - contradiction.
  - intros _. exists "". split; [constructor|]. now rewrite emit_nil.
Qed.

(** ** Cells *)
Definition stack (k : string) (t : tb_state) : list Z := if String.eqb k "th" then tbTh t else tbTd t.
Definition set_stack (k : string) (s : list Z) (t : tb_state) : tb_state :=
  if String.eqb k "th" then TB (tbOut t) (tbBr t) s (tbTd t) else TB (tbOut t) (tbBr t) (tbTh t) s.
Lemma stack_set k s t : stack k (set_stack k s t) = s.
Proof. unfold stack, set_stack. destruct (String.eqb k "th"); reflexivity. Qed.
Lemma stack_other k k' s t : cell k -> cell k' -> k <> k' -> stack k' (set_stack k s t) = stack k' t.
Proof. intros [-> | ->] [-> | ->] N; try congruence; reflexivity. Qed.
Lemma set_set k s s' t : set_stack k s (set_stack k s' t) = set_stack k s t.
Proof. unfold set_stack. destruct (String.eqb k "th"); reflexivity. Qed.
Lemma set_own k t : set_stack k (stack k t) t = t.
Proof. destruct t. unfold set_stack, stack. destruct (String.eqb k "th"); reflexivity. Qed.
Lemma set_emit k s e t : emit e (set_stack k s t) = set_stack k s (emit e t).
Proof. unfold set_stack, emit. destruct (String.eqb k "th"); reflexivity. Qed.
Lemma stack_emit k e t : stack k (emit e t) = stack k t.
Proof. reflexivity. Qed.
Lemma tables_set k s t : in_tables (set_stack k s t) = in_tables t.
Proof. unfold in_tables, set_stack. destruct (String.eqb k "th"); reflexivity. Qed.
Lemma open_cell k attrs t : cell k ->
  tb_open k attrs t = Ok (set_stack k (repeat (Z.of_nat (span attrs)) (span attrs - 1) ++ stack k t) (emit (srep (span attrs) ("<" ++ k ++ ">")) t)).
Proof.
  pose proof (span_pos attrs) as P. intros [-> | ->]; unfold tb_open; cbn [String.eqb Ascii.eqb Bool.eqb].
  - rewrite span_push by reflexivity. rewrite push_th_times. cbn [bind]. replace (mem String.eqb "th" block_elems) with false by reflexivity.
    rewrite andb_false_r. unfold with_th, set_stack, emit. cbn. rewrite append_assoc. destruct (span attrs) as [|n]; [lia|]. cbn. now rewrite Nat.sub_0_r.
  - rewrite span_push by reflexivity. rewrite push_td_times. cbn [bind]. replace (mem String.eqb "td" block_elems) with false by reflexivity.
    rewrite andb_false_r. unfold with_td, set_stack, emit. cbn. rewrite append_assoc. destruct (span attrs) as [|n]; [lia|]. cbn. now rewrite Nat.sub_0_r.
Qed.
Lemma close_one k t : cell k -> stack k t = [] -> tb_close k t = Ok (emit ("</" ++ k ++ ">") t).
Proof. intros [-> | ->] E; cbn in E; unfold tb_close; cbn; rewrite E; reflexivity. Qed.
Lemma close_wide k t n s : cell k -> stack k t = (repeat (Z.of_nat (S (S n))) (S n) ++ s)%list ->
  tb_close k t = Ok (set_stack k s (emit (srep (S (S n)) ("</" ++ k ++ ">")) t)).
Proof.
  intros [-> | ->] E; unfold stack in E; cbn [String.eqb Ascii.eqb Bool.eqb] in E; unfold tb_close; cbn [String.eqb Ascii.eqb Bool.eqb]; cbv zeta.
  - change (tbTh (emit "</th>" t)) with (tbTh t). rewrite E at 1. unfold col_span2_helper. cbn [repeat app].
    replace (Z.to_nat (Z.of_nat (S (S n)) - 1)) with (S n) by lia.
    rewrite (pop_th_times (S n) (Z.of_nat (S (S n))) s) by exact E. unfold with_th, set_stack, emit. cbn [String.eqb Ascii.eqb Bool.eqb tbOut tbBr tbTh tbTd].
    now rewrite append_assoc.
  - change (tbTd (emit "</td>" t)) with (tbTd t). rewrite E at 1. unfold col_span2_helper. cbn [repeat app].
    replace (Z.to_nat (Z.of_nat (S (S n)) - 1)) with (S n) by lia.
    rewrite (pop_td_times (S n) (Z.of_nat (S (S n))) s) by exact E. unfold with_td, set_stack, emit. cbn [String.eqb Ascii.eqb Bool.eqb tbOut tbBr tbTh tbTd].
    now rewrite append_assoc.
Qed.

(** ** Everything *)
Definition around (wide : list string) (t : tb_state) : Prop := forall k, cell k -> ~ In k wide -> stack k t = [].
Lemma draw wide l : tidy wide l -> forall t, around wide t -> (0 <= tbBr t)%Z ->
  exists s, drawn (in_tables t) l s /\ tb_loop (tokens l) t = Ok (emit s t).
Proof.
  induction 1 as [wide|wide d l _ IH|wide k l M _ IH|wide k attrs inside l C SA NW _ IH1 _ IH2|wide k attrs n inside l C SA W _ IH1 _ IH2|wide n attrs inside l NC _ IH1 _ IH2];
    intros t A B; cbn [tokens flat_map tokens_of]; fold tokens.
  - exists "". split; [constructor|]. cbn. now rewrite emit_nil.
  - cbn [app tb_loop tb_token]. cbv zeta. pose proof (trim_spec d) as T. destruct (trim_space d) as [|c r] eqn:E; cbn [nonempty bind].
    + destruct (IH t A B) as (s&D&L). exists s. split; [now apply dr_blank|exact L].
    + destruct (IH (emit (String c r ++ " ") t) A B) as (s&D&L). exists (String c r ++ " " ++ s). split; [apply dr_text; auto; discriminate|].
      unfold tokens in L. rewrite L, emit_app, append_assoc. reflexivity.
  - cbn [app tb_loop]. destruct (lone_ok k t M) as (s&O&->). cbn [bind].
    destruct (IH (emit s t) A B) as (r&D&L). exists (s ++ r). split; [now apply dr_lone|]. unfold tokens in L. now rewrite L, emit_app.
  - pose proof (spans_span _ _ SA) as SP. assert (S1 : span attrs = 1) by lia.
    cbn [app tb_loop tb_token]. rewrite (open_cell k attrs t C), S1. cbn [bind repeat app Nat.sub srep].
    rewrite append_nil_r.
    replace (set_stack k (stack k t) (emit ("<" ++ k ++ ">") t)) with (emit ("<" ++ k ++ ">") t) by (symmetry; apply (set_own k (emit _ t))).
    rewrite <- app_assoc, tb_loop_app.
    destruct (IH1 (emit ("<" ++ k ++ ">") t) A B) as (s&D1&L1). unfold tokens in L1. rewrite L1. cbn [bind app tb_loop tb_token].
    rewrite (close_one k _ C) by (apply (A k C NW)). cbn [bind].
    destruct (IH2 (emit ("</" ++ k ++ ">") (emit s (emit ("<" ++ k ++ ">") t))) A B) as (r&D2&L2). unfold tokens in L2. rewrite L2, !emit_app.
    exists (("<" ++ k ++ ">") ++ s ++ ("</" ++ k ++ ">") ++ r). split; [|now rewrite !append_assoc].
    apply (dr_cell _ _ _ 1); auto.
    + replace ("<" ++ k ++ ">") with (srep 1 ("<" ++ k ++ ">")) at 2 by apply append_nil_r. apply (srep_copies 1).
    + replace ("</" ++ k ++ ">") with (srep 1 ("</" ++ k ++ ">")) at 2 by apply append_nil_r. apply (srep_copies 1).
  - pose proof (spans_span _ _ SA) as SP. destruct (span attrs) as [|[|m]] eqn:E; [lia|lia|].
    cbn [app tb_loop tb_token]. rewrite (open_cell k attrs t C), E. cbn [bind].
    replace (S (S m) - 1) with (S m) by lia.
    set (t1 := set_stack k _ _). rewrite <- app_assoc, tb_loop_app.
    assert (T1 : in_tables t1 = in_tables t) by (unfold t1; rewrite tables_set; reflexivity).
    assert (B1 : (0 <= tbBr t1)%Z) by (unfold t1, set_stack; destruct (String.eqb k "th"); exact B).
    destruct (IH1 t1) as (s&D1&L1); [|exact B1|].
    { intros k' C' N. unfold t1. rewrite stack_other; auto; [|intros ->; apply N; now left]. rewrite stack_emit. apply A; auto. intro X. apply N. now right. }
    unfold tokens in L1. rewrite L1. cbn [bind app tb_loop tb_token].
    rewrite (close_wide k _ m (stack k t) C) by (rewrite stack_emit; apply stack_set). cbn [bind].
    replace (set_stack k (stack k t) (emit (srep (S (S m)) ("</" ++ k ++ ">")) (emit s t1)))
      with (emit (srep (S (S m)) ("<" ++ k ++ ">") ++ s ++ srep (S (S m)) ("</" ++ k ++ ">")) t).
    2:{ unfold t1. rewrite !set_emit, set_set, !emit_app, ?append_assoc. symmetry. apply (set_own k (emit _ t)). }
    match goal with |- context [tb_loop (flat_map tokens_of l) ?t2] => destruct (IH2 t2 A B) as (r&D2&L2) end. unfold tokens in L2. rewrite L2, ?emit_app.
    eexists. split; [|reflexivity]. rewrite ?append_assoc. rewrite T1 in D1.
    apply (dr_cell _ _ _ n); auto; rewrite SP; apply srep_copies.
  - destruct (String.eqb_spec n "table") as [->|NT].
    + cbn [app tb_loop tb_token]. unfold tb_open. cbn [String.eqb Ascii.eqb Bool.eqb bind].
      replace (mem String.eqb "table" block_elems) with false by reflexivity. rewrite andb_false_r.
      set (t1 := emit "<table>" _). rewrite <- app_assoc, tb_loop_app.
      assert (B1 : (0 <= tbBr t1)%Z) by (cbn; lia). assert (T1 : in_tables t1 = true) by (unfold in_tables; cbn; apply Z.ltb_lt; lia).
      destruct (IH1 t1 A B1) as (s&D1&L1). unfold tokens in L1. rewrite L1. cbn [bind app tb_loop tb_token]. unfold tb_close. cbn [String.eqb Ascii.eqb Bool.eqb bind].
      match goal with |- context [tb_loop (flat_map tokens_of l) ?t2] => replace t2 with (emit ("<table>" ++ s ++ "</table>") t);
        [|unfold t1, emit; cbn; rewrite !append_assoc; f_equal; lia] end.
      match goal with |- context [tb_loop (flat_map tokens_of l) ?t2] => destruct (IH2 t2 A B) as (r&D2&L2) end. unfold tokens in L2. rewrite L2, ?emit_app.
      eexists. split; [|reflexivity]. rewrite ?append_assoc. rewrite T1 in D1. now apply dr_table.
    + cbn [app tb_loop tb_token]. destruct (open_plain n attrs t NT NC) as (o&O&->). cbn [bind]. rewrite <- app_assoc, tb_loop_app.
      destruct (IH1 (emit o t) A B) as (s&D1&L1). unfold tokens in L1. rewrite L1. cbn [bind app tb_loop tb_token].
      destruct (close_plain n (emit s (emit o t)) NT NC) as (c&K&->). cbn [bind].
      match goal with |- context [tb_loop (flat_map tokens_of l) ?t2] => destruct (IH2 t2 A B) as (r&D2&L2) end. unfold tokens in L2. rewrite L2, !emit_app.
      eexists. split; [|reflexivity]. rewrite ?append_assoc. now apply dr_element.
Qed.

Lemma copies_srep s z r : copies s z r -> forall n, z = Z.of_nat n -> r = srep n s.
Proof.
  assert (P : forall z r, copies s z r -> (0 <= z)%Z) by (induction 1; lia).
  induction 1 as [|z r C IH]; intros n E; [destruct n; [reflexivity|lia]|].
  destruct n as [|n]; [pose proof (P _ _ C); lia|]. cbn [srep]. rewrite (IH n); auto. lia.
Qed.
