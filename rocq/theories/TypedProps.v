(** * TypedProps: C157 (reading a typed member ends) *)
From Verif Require Import GoBase GoSpec GoFacts AttrModel AttrSpec SchemaModel SchemaSpec SchemaProofs SchemaProps
  LinkbaseModel InstanceModel InstanceSpec InstanceProofs InstanceProps TypedModel TypedSpec.
From Coq Require Import Lia.
Local Open Scope string_scope.

Lemma fold_byte_cases c d : fold_byte c = d ->
  c = d \/ (exists n, (65 <= n <= 90)%nat /\ c = ascii_of_nat n /\ d = ascii_of_nat (n + 32)).
Proof.
  unfold fold_byte. cbv zeta. destruct (Nat.leb_spec 65 (nat_of_ascii c)); cbn [andb]; [|auto].
  destruct (Nat.leb_spec (nat_of_ascii c) 90); [|auto]. intros <-. right. exists (nat_of_ascii c).
  repeat split; auto. now rewrite ascii_nat_embedding.
Qed.
Lemma fold_byte_iff c : forall d, In d ["u"; "t"; "f"; "-"; "8"]%char -> fold_byte c = d ->
  c = d \/ (d = "u" /\ c = "U")%char \/ (d = "t" /\ c = "T")%char \/ (d = "f" /\ c = "F")%char.
Proof.
  intros d I H. apply fold_byte_cases in H as [H|(n&B&->&E)]; auto.
  assert (N : nat_of_ascii d = (n + 32)%nat) by (rewrite E; apply nat_ascii_embedding; lia).
  right. cbn [In] in I. destruct I as [<-|[<-|[<-|[<-|[<-|[]]]]]]; cbn in N.
  - left. split; auto. replace n with 85%nat by lia. reflexivity.
  - right. left. split; auto. replace n with 84%nat by lia. reflexivity.
  - right. right. split; auto. replace n with 70%nat by lia. reflexivity.
  - lia.
  - lia.
Qed.
Lemma is_utf8_iff enc : is_utf8 enc = true <-> harmless_encoding enc.
Proof.
  unfold is_utf8, harmless_encoding. rewrite orb_true_iff, !String.eqb_eq. apply or_iff_compat_l. split.
  - destruct enc as [|c1 [|c2 [|c3 [|c4 [|c5 [|c6 r]]]]]]; try discriminate. cbn [fold_case]. intro H.
    injection H as H1 H2 H3 H4 H5. 
    apply fold_byte_iff in H1; [|cbn; tauto]. apply fold_byte_iff in H2; [|cbn; tauto].
    apply fold_byte_iff in H3; [|cbn; tauto]. apply fold_byte_iff in H4; [|cbn; tauto].
    apply fold_byte_iff in H5; [|cbn; tauto].
    destruct H4 as [->|[[D _]|[[D _]|[D _]]]]; try discriminate D.
    destruct H5 as [->|[[D _]|[[D _]|[D _]]]]; try discriminate D.
    exists (String c1 ""), (String c2 ""), (String c3 ""). cbn [append].
    destruct H1 as [->|[[_ ->]|[[D _]|[D _]]]]; try discriminate D;
    destruct H2 as [->|[[D _]|[[_ ->]|[D _]]]]; try discriminate D;
    destruct H3 as [->|[[D _]|[[D _]|[_ ->]]]]; try discriminate D; cbn; tauto.
  - intros (u&t&f&Hu&Ht&Hf&->). cbn [In] in *.
    destruct Hu as [<-|[<-|[]]]; destruct Ht as [<-|[<-|[]]]; destruct Hf as [<-|[<-|[]]]; reflexivity.
Qed.

Lemma iter_S {A} (f : A -> A) k x : turns (S k) f x = turns k f (f x).
Proof. induction k as [|k IH]; auto. cbn [turns] in *. now rewrite IH. Qed.
Lemma turns_add {A} (f : A -> A) j k x : turns (j + k) f x = turns j f (turns k f x).
Proof. induction j as [|j IH]; auto. cbn [Nat.add turns]. now rewrite IH. Qed.
Lemma ordinary_cons m c : ordinary (m :: c) <-> (forall enc, m = Declaration enc -> harmless_encoding enc) /\ ordinary c.
Proof.
  unfold ordinary. split.
  - intro H. split; [intros enc ->; apply H; now left|intros enc I; apply H; now right].
  - intros [H1 H2] enc [E|I]; auto.
Qed.
(** the calls within an ordinary beginning *)
Lemma token_call_in a : ordinary a -> forall b n m, nth_error a n = Some m -> token_call (a ++ b) n = Read (token_of m).
Proof.
  induction a as [|x a IH]; intros O b n m E; [destruct n; discriminate|]. apply ordinary_cons in O as [Ox O].
  destruct x as [t|enc]; cbn [app token_call].
  - destruct n as [|n]; [now injection E as <-|]. now apply IH.
  - assert (U : is_utf8 enc = true) by now apply is_utf8_iff, Ox. rewrite U.
    destruct n as [|n]; [now injection E as <-|]. now apply IH.
Qed.
Lemma token_call_past a : ordinary a -> forall b n, (length a <= n)%nat -> token_call (a ++ b) n = token_call b (n - length a).
Proof.
  induction a as [|x a IH]; intros O b n L; [now rewrite Nat.sub_0_r|]. apply ordinary_cons in O as [Ox O].
  cbn [length] in L. destruct n as [|n]; [lia|]. destruct x as [t|enc]; cbn [app token_call length Nat.sub].
  - apply IH; auto. lia.
  - assert (U : is_utf8 enc = true) by now apply is_utf8_iff, Ox. rewrite U. apply IH; auto. lia.
Qed.
Lemma token_call_failed enc b n : ~ harmless_encoding enc -> token_call (Declaration enc :: b) n = Failed.
Proof.
  intro H. cbn [token_call]. destruct (is_utf8 enc) eqn:U; auto. apply is_utf8_iff in U. contradiction.
Qed.

Section Rounds.
  Variables (q : qenv) (attrs : list xattr) (content : list markup) (dim : concept).
  Notation round := (around q attrs content dim).
  Lemma returned_stays r k : turns k round (Returned r) = Returned r.
  Proof. induction k as [|k IH]; auto. cbn [turns]. now rewrite IH. Qed.
  (** from the nth call on, over the ordinary rest [a] *)
  Lemma rounds a : forall pre b s, content = (pre ++ a ++ b)%list -> ordinary (pre ++ a) ->
    (exists s', turns (length a) round (Loop (length pre) s) = Loop (length (pre ++ a)) s' /\
       forall rest, tm_loop q attrs dim (map token_of a ++ rest) s = tm_loop q attrs dim rest s') \/
    (exists r, (forall k, (length a <= k)%nat -> turns k round (Loop (length pre) s) = Returned r) /\
       forall rest, tm_loop q attrs dim (map token_of a ++ rest) s = r).
  Proof.
    induction a as [|m a IH]; intros pre b s E O.
    - left. exists s. cbn. rewrite app_nil_r. auto.
    - assert (C : token_call content (length pre) = Read (token_of m)).
      { rewrite E, app_assoc. apply token_call_in; auto. rewrite nth_error_app2 by lia. now rewrite Nat.sub_diag. }
      assert (R : round (Loop (length pre) s) =
                  match tm_token q attrs dim (token_of m) s with
                  | TMNext s' => Loop (S (length pre)) s' | TMNil => Returned (Ok ([], [])) | TMPanic => Returned Panic end)
        by (cbn [around]; now rewrite C).
      cbn [map app tm_loop].
      destruct (tm_token q attrs dim (token_of m) s) as [s1| |].
      + specialize (IH (pre ++ [m])%list b s1).
        rewrite !app_length in IH. cbn [length] in IH. rewrite Nat.add_1_r in IH.
        assert (E' : content = ((pre ++ [m]) ++ a ++ b)%list) by (rewrite E, <- app_assoc; reflexivity).
        assert (O' : ordinary ((pre ++ [m]) ++ a)) by (rewrite <- app_assoc; exact O).
        destruct (IH E' O') as [(s'&I1&I2)|(r&I1&I2)].
        * left. exists s'. split; [|exact I2]. cbn [length]. rewrite iter_S, R, I1, !app_length. cbn [length]. f_equal. lia.
        * right. exists r. split; [|exact I2]. intros k L. destruct k as [|k]; [cbn in L; lia|]. rewrite iter_S, R.
          apply I1. cbn [length] in L. lia.
      + right. exists (Ok ([], [])). split; auto. intros k L. destruct k as [|k]; [cbn in L; lia|].
        rewrite iter_S, R. apply returned_stays.
      + right. exists Panic. split; auto. intros k L. destruct k as [|k]; [cbn in L; lia|].
        rewrite iter_S, R. apply returned_stays.
  Qed.
  (** an error is met again and again *)
  Lemma failing_stays n s : (forall j, (n <= j)%nat -> token_call content j = Failed) ->
    forall k, turns k round (Loop n s) = Loop (k + n) s.
  Proof.
    intros F k. induction k as [|k IH]; auto. cbn [turns]. rewrite IH. cbn [around]. rewrite F by lia. reflexivity.
  Qed.
End Rounds.

(** ** C157 *)

(** Without declarations of other encodings, reading ends, with the result [hydrate_typed_members] gives for the
    tokens. *)
Theorem C157_ends_partial : forall q attrs dimension content, ordinary content ->
  ends q attrs dimension content
    (hydrate_typed_members q (fun _ => map token_of content) attrs dimension "").
Proof.
  intros q attrs dimension content O. unfold ends, after_rounds, hydrate_typed_members.
  destruct (hash_query (q_namespaces q) q dimension) as [[k0 dim]|m|]; [|exists 0%nat; auto|exists 0%nat; auto].
  destruct (rounds q attrs content dim content [] [] (TMState [] [] 0 [] (Some dim) dimension)) as [(s'&I1&I2)|(r&I1&I2)].
  - cbn. now rewrite app_nil_r.
  - exact O.
  - specialize (I2 []). rewrite app_nil_r in I2. cbn [tm_loop] in I2. rewrite I2. cbn [app length] in I1.
    exists (S (length content)). intros j L. replace j with ((j - S (length content)) + (S (length content)))%nat by lia.
    rewrite turns_add. cbn [turns]. rewrite I1. cbn [around]. assert (C : token_call content (length content) = EOF).
    { rewrite <- (app_nil_r content) at 1. rewrite token_call_past by auto. now rewrite Nat.sub_diag. }
    rewrite C. apply returned_stays.
  - specialize (I2 []). rewrite app_nil_r in I2. rewrite I2. exists (length content). intros j L. now apply I1.
Qed.
Print Assumptions C157_ends_partial.

(** It does not end exactly if it reaches a declaration of another encoding. *)
Theorem C157_endless_partial : forall q attrs dimension content,
  (forall r, ~ ends q attrs dimension content r) <->
  exists a enc b n s, content = (a ++ Declaration enc :: b)%list /\ ordinary a /\ ~ harmless_encoding enc /\
    after_rounds q attrs dimension content (length a) = Loop n s.
Proof.
  intros q attrs dimension content. split.
  - intro H.
    assert (D : ordinary content \/ exists a enc b, content = (a ++ Declaration enc :: b)%list /\ ordinary a /\ ~ harmless_encoding enc).
    { clear. induction content as [|m c IH]; [left; intros ? []|].
      assert (M : (forall enc, m = Declaration enc -> harmless_encoding enc) \/ exists enc, m = Declaration enc /\ ~ harmless_encoding enc).
      { destruct m as [t|enc]; [left; discriminate|]. destruct (is_utf8 enc) eqn:U.
        - left. intros e E. injection E as <-. now apply is_utf8_iff.
        - right. exists enc. split; auto. intro Hn. apply is_utf8_iff in Hn. congruence. }
      destruct M as [M|(enc&->&M)]; [|right; exists [], enc, c; repeat split; auto; intros ? []].
      destruct IH as [O|(a&enc&b&->&O&N)]; [left; now apply ordinary_cons|].
      right. exists (m :: a), enc, b. repeat split; auto. now apply ordinary_cons. }
    destruct D as [O|(a&enc&b&E&O&N)]; [elim (H _ (C157_ends_partial q attrs dimension content O))|].
    exists a, enc, b. unfold ends, after_rounds in *.
    destruct (hash_query (q_namespaces q) q dimension) as [[k0 dim]|m|];
      [|elim (H (Ok ([], []))); exists 0%nat; auto|elim (H Panic); exists 0%nat; auto].
    destruct (rounds q attrs content dim a [] (Declaration enc :: b) (TMState [] [] 0 [] (Some dim) dimension) E O) as [(s'&I1&_)|(r&I1&_)].
    + cbn [app length] in I1. exists (length a), s'. auto.
    + exfalso. apply (H r). exists (length a). intros j L. now apply I1.
  - intros (a&enc&b&n&s&E&O&N&S) r (k&K).
    unfold after_rounds in *. destruct (hash_query (q_namespaces q) q dimension) as [[k0 dim]|m|]; try discriminate S.
    assert (Hn : n = length a).
    { destruct (rounds q attrs content dim a [] (Declaration enc :: b) (TMState [] [] 0 [] (Some dim) dimension) E O) as [(s'&I1&_)|(r'&I1&_)].
      - cbn [app length] in I1. rewrite I1 in S. congruence.
      - cbn [length] in I1. rewrite I1 in S by auto. discriminate. }
    specialize (K (k + length a)%nat ltac:(lia)). rewrite turns_add in K.
    rewrite S, failing_stays in K; [discriminate|]. intros j L. subst n. rewrite E, token_call_past by auto. now apply token_call_failed.
Qed.
Print Assumptions C157_endless_partial.

(** [<t:A><?xml version="1.0" encoding="ISO-8859-1"?>1</t:A>] in a typed member *)
Definition declared_inside : list markup :=
  [Markup (TokStart (XName "t" "A")); Declaration "ISO-8859-1"; Markup (TokChar "1"); Markup (TokEnd (XName "t" "A"))].
Theorem C157_refuted : exists q attrs dimension content, qenv_ok q /\
  (forall known : string -> Prop, known "ISO-8859-1" -> readable known content) /\
  forall r, ~ ends q attrs dimension content r.
Proof.
  exists ex_env, ex_scope, "t.xsd#t_Dim", declared_inside. split; [exact ex_env_ok|]. split.
  - intros known K enc [E|[E|[E|[E|[]]]]]; try discriminate E. injection E as <-. now right.
  - apply C157_endless_partial. exists [Markup (TokStart (XName "t" "A"))], "ISO-8859-1", [Markup (TokChar "1"); Markup (TokEnd (XName "t" "A"))].
    eexists _, _. split; [reflexivity|]. split; [intros e [E|[]]; discriminate E|]. split.
    + rewrite <- is_utf8_iff. vm_compute. discriminate.
    + vm_compute. reflexivity.
Qed.
Print Assumptions C157_refuted.

(** A declaration of UTF-8 does no harm. *)
Example C157_example :
  ordinary [Markup (TokStart (XName "t" "A")); Declaration "UTF-8"; Markup (TokChar " 1 "); Markup (TokEnd (XName "t" "A"))] /\
  hydrate_typed_members ex_env (fun _ => map token_of
    [Markup (TokStart (XName "t" "A")); Declaration "UTF-8"; Markup (TokChar " 1 "); Markup (TokEnd (XName "t" "A"))])
    ex_scope "t.xsd#t_Dim" "" = Ok ([("t.xsd#t_A", "1")], [TArc (f64_of_nat 1) "t.xsd#t_Dim" "t.xsd#t_A"]).
Proof.
  split; [|vm_compute; reflexivity]. intros e [E|[E|[E|[E|[]]]]]; try discriminate E. injection E as <-.
  right. exists "U", "T", "F". cbn. tauto.
Qed.
