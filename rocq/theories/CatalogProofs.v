(** * CatalogProofs *)
From Verif Require Import GoBase GoSpec GoFacts AttrModel SchemaModel SchemaSpec SchemaProofs LinkbaseModel InstanceModel
  CatalogModel CatalogSpec.
Local Open Scope string_scope.

Lemma collect_In {A B} (f : A -> option B) l y : In y (collect f l) <-> exists x, In x l /\ f x = Some y.
Proof.
  induction l as [|x t IH]; simpl; [split; [tauto|intros (?&[]&_)]|].
  destruct (f x) as [z|] eqn:E; simpl; rewrite IH; split.
  - intros [->|(x'&H&F)]; eauto.
  - intros (x'&[->|H]&F); [left; congruence|eauto].
  - intros (x'&H&F); eauto.
  - intros (x'&[->|H]&F); [congruence|eauto].
Qed.

(** ** Canonical lists *)
Lemma pair_lt_irrefl a : ~ pair_lt a a.
Proof. intros [H|[_ H]]; now apply slt_irrefl in H. Qed.
Lemma pair_lt_trans a b c : pair_lt a b -> pair_lt b c -> pair_lt a c.
Proof.
  unfold pair_lt. intros [H|[E H]] [H'|[E' H']].
  - left; eapply slt_trans; eauto.
  - left; now rewrite <- E'.
  - left; now rewrite E.
  - right; split; [congruence|eapply slt_trans; eauto].
Qed.

Lemma sorted_lt_NoDup {A} (R : A -> A -> Prop) l : (forall x, ~ R x x) -> StronglySorted R l -> NoDup l.
Proof.
  intros I. induction 1 as [|x l S IH F]; constructor; auto.
  intro H. rewrite Forall_forall in F. now apply (I x), F.
Qed.

Lemma canonical_unique {A} (key : A -> string * string) (P : A -> Prop) l l' :
  canonical key P l -> canonical key P l' -> l = l'.
Proof.
  intros [E S] [E' S']. apply (sorted_perm_unique (fun a b => pair_lt (key a) (key b))); auto.
  - intros x y _ _ H1 H2. cbv beta in *. exfalso. eapply pair_lt_irrefl, pair_lt_trans; eauto.
  - apply NoDup_Permutation.
    + eapply sorted_lt_NoDup; eauto. intro; apply pair_lt_irrefl.
    + eapply sorted_lt_NoDup; eauto. intro; apply pair_lt_irrefl.
    + intro x. rewrite E, E'. tauto.
Qed.

(** sorting a duplicate-free list by two keys that determine the element *)
Lemma isort_canonical {A} (f g : A -> string) (l : list A) (P : A -> Prop) :
  (forall x y, f x = f y -> g x = g y -> x = y) ->
  NoDup l -> (forall x, In x l <-> P x) ->
  canonical (fun x => (f x, g x)) P
    (isort (fun x y => if String.eqb (f x) (f y) then String.ltb (g x) (g y) else String.ltb (f x) (f y)) l).
Proof.
  intros Inj ND E.
  set (lt := fun x y => if String.eqb (f x) (f y) then String.ltb (g x) (g y) else String.ltb (f x) (f y)).
  assert (SW : swo (fun _ : A => True) lt) by (apply swo_lex, (swo_by _ g), swo_string).
  destruct (isort_stably_sorted lt l SW) as (HP&HS&_). split.
  - intro x. rewrite <- E. split; apply Permutation_in; [symmetry|]; auto.
  - assert (ND' : NoDup (isort lt l)) by (eapply Permutation_NoDup; eauto).
    clear HP E ND. revert ND'. induction HS as [|x t S IH F]; intro ND'; [constructor|].
    inversion ND'; subst. constructor; auto.
    rewrite Forall_forall in *. intros y Hy. specialize (F y Hy). unfold lt, pair_lt in *. simpl.
    destruct (String.eqb_spec (f y) (f x)) as [Q|Q].
    + rewrite Q. right. split; auto. apply ltb_false_iff in F as [Z|Z]; auto.
      assert (x = y) by auto. subst. contradiction.
    + left. apply ltb_false_iff in F as [Z|Z]; auto. congruence.
Qed.

Lemma rset_eqbP a b : rset_eqb a b = true <-> a = b.
Proof.
  unfold rset_eqb. rewrite andb_true_iff, !String.eqb_eq. destruct a, b; simpl. split; [intros []; congruence|intro H; injection H; auto].
Qed.
Lemma entity_eqbP a b : entity_eqb a b = true <-> a = b.
Proof.
  unfold entity_eqb. rewrite andb_true_iff, !String.eqb_eq. destruct a, b; simpl. split; [intros []; congruence|intro H; injection H; auto].
Qed.

Lemma rsets_canonical schemas :
  canonical (fun r => (rsTitle r, rsRole r)) (declared schemas) (sorted_relationship_sets schemas).
Proof.
  apply isort_canonical.
  - intros [] []; simpl; congruence.
  - apply (uniq_NoDup _ rset_eqbP).
  - intro r. unfold dedup_relationship_sets. rewrite (uniq_In _ rset_eqbP), in_flat_map. unfold declared.
    split.
    + intros (s&Hs&H). apply collect_In in H as (t&Ht&H). unfold role_type_rset in H.
      destruct (nonempty (rRoleURI t)) eqn:N; [|discriminate]. injection H; intros <-.
      apply nonempty_iff in N. exists s, t. auto.
    + intros (s&t&Hs&Ht&N&E1&E2). exists s. split; auto. apply collect_In. exists t. split; auto.
      unfold role_type_rset. apply nonempty_iff in N. rewrite N. destruct r; simpl in *; congruence.
Qed.
Lemma entities_canonical insts :
  canonical (fun e => (eScheme e, eChar e)) (reported insts) (sorted_entities insts).
Proof.
  apply isort_canonical.
  - intros [] []; simpl; congruence.
  - apply (uniq_NoDup _ entity_eqbP).
  - intro e. unfold dedup_entities. rewrite (uniq_In _ entity_eqbP), in_flat_map. unfold reported.
    split.
    + intros (i&Hi&H). apply collect_In in H as (c&Hc&H). unfold context_entity in H.
      destruct (nonempty (ctxScheme c)) eqn:N; [|discriminate].
      destruct (nonempty (ctxIdentifier c)) eqn:N2; [|discriminate]. simpl in H. injection H; intros <-.
      apply nonempty_iff in N, N2. exists i, c. simpl. auto 10.
    + intros (i&c&Hi&Hc&N&N2&E1&E2). exists i. split; auto. apply collect_In. exists c. split; auto.
      unfold context_entity. rewrite E1 in N. rewrite E2 in N2. apply nonempty_iff in N, N2. rewrite N, N2.
      destruct e; simpl in *; congruence.
Qed.

(** ** FNV and hexadecimal *)
Lemma fnv_spec s : forall l h, fnv1a l h -> fnv1a (l ++ list_ascii_of_string s) (fnv h s).
Proof.
  induction s as [|c r IH]; intros l h H; cbn [list_ascii_of_string fnv]; [now rewrite app_nil_r|].
  change (c :: list_ascii_of_string r) with ([c] ++ list_ascii_of_string r)%list.
  rewrite app_assoc. apply IH. exact (fnv_byte l h c H).
Qed.
Lemma fnv1a_fun l h h' : fnv1a l h -> fnv1a l h' -> h = h'.
Proof.
  intro H. revert h'. induction H as [|l h c H IH]; intros h' H'.
  - inversion H' as [|l0 h0 c0 H0 E]; subst; auto. destruct l0; discriminate.
  - inversion H' as [E|l0 h0 c0 H0 E]; subst; [destruct l; discriminate|].
    apply app_inj_tail in E as [-> ->]. now rewrite (IH _ H0).
Qed.
Lemma fnv1a_bound l h : fnv1a l h -> (h < 2 ^ 128)%N.
Proof. destruct 1; [reflexivity|]. apply N.mod_lt. discriminate. Qed.

Lemma hex_val_digit d : (d < 16)%N -> hex_val (hex_digit d) = Some d.
Proof.
  intro H. assert (In d [0;1;2;3;4;5;6;7;8;9;10;11;12;13;14;15]%N) as I.
  { destruct d as [|p]; [simpl; auto|]. do 4 (destruct p as [p|p|]; simpl; try tauto; try (exfalso; lia)). }
  simpl in I. repeat (destruct I as [<-|I]; [reflexivity|]). contradiction.
Qed.
Lemma hex_val_inv c d : hex_val c = Some d -> c = hex_digit d /\ (d < 16)%N.
Proof.
  destruct c as [[] [] [] [] [] [] [] []]; vm_compute; intro H; try discriminate H; injection H; intros <-; split; reflexivity.
Qed.
Lemma hex_numeral_cons c d l n : hex_numeral l n -> hex_val c = Some d ->
  hex_numeral (c :: l) (d * 16 ^ N.of_nat (List.length l) + n).
Proof.
  intros H V. induction H as [|l n c' d' H IH V'].
  - simpl. replace (d * 1 + 0)%N with (16 * 0 + d)%N by lia. apply (hex_more [] 0 c d); auto. constructor.
  - rewrite app_length. cbn [List.length]. rewrite Nat.add_1_r, Nat2N.inj_succ, N.pow_succ_r'.
    replace (d * (16 * 16 ^ N.of_nat (List.length l)) + (16 * n + d'))%N
      with (16 * (d * 16 ^ N.of_nat (List.length l) + n) + d')%N by ring.
    exact (hex_more (c :: l) _ c' d' IH V').
Qed.
Lemma hex_length n h : List.length (list_ascii_of_string (hex n h)) = n.
Proof. induction n; simpl; auto. Qed.
Lemma hex_numeral_hex n h : hex_numeral (list_ascii_of_string (hex n h)) (h mod 16 ^ N.of_nat n).
Proof.
  induction n as [|n IH].
  - cbn [hex list_ascii_of_string]. simpl N.of_nat. rewrite N.pow_0_r, N.mod_1_r. constructor.
  - cbn [hex list_ascii_of_string].
    assert (E : (h mod 16 ^ N.of_nat (S n) = (h / 16 ^ N.of_nat n mod 16) * 16 ^ N.of_nat n + h mod 16 ^ N.of_nat n)%N).
    { rewrite Nat2N.inj_succ, N.pow_succ_r', N.mul_comm, N.mod_mul_r; [ring| |discriminate].
      apply N.pow_nonzero. discriminate. }
    rewrite E. pose proof (hex_numeral_cons (hex_digit (h / 16 ^ N.of_nat n mod 16)) (h / 16 ^ N.of_nat n mod 16) _ _ IH) as C.
    rewrite (hex_length n h) in C. apply C. apply hex_val_digit. apply N.mod_lt. discriminate.
Qed.
Lemma hex_numeral_inj l n : hex_numeral l n -> forall l', hex_numeral l' n -> List.length l = List.length l' -> l = l'.
Proof.
  induction 1 as [|l n c d H IH V]; intros l' H' L.
  - destruct l'; [auto|discriminate].
  - inversion H' as [E|l0 n0 c0 d0 H0 V0 E1 E2]; subst.
    + rewrite app_length in L. simpl in L. lia.
    + rewrite !app_length in L. simpl in L.
      apply hex_val_inv in V as [-> B], V0 as [-> B0].
      change (16 * n0 + d0 = 16 * n + d)%N in E2. assert (n0 = n /\ d0 = d) as [-> ->] by lia.
      f_equal. apply IH; auto. lia.
Qed.
Lemma las_inj s t : list_ascii_of_string s = list_ascii_of_string t -> s = t.
Proof.
  intro H. rewrite <- (string_of_list_ascii_of_string s), <- (string_of_list_ascii_of_string t). now rewrite H.
Qed.
Lemma las_length s : List.length (list_ascii_of_string s) = String.length s.
Proof. induction s; simpl; auto. Qed.

Lemma hash_slug e r : is_slug e r (hash (stringify e) (rsRole r) (rsTitle r)).
Proof.
  unfold is_slug, hash. set (t := stringify e ++ rsRole r ++ rsTitle r).
  exists (fnv fnv_offset t).
  assert (F : fnv1a (list_ascii_of_string t) (fnv fnv_offset t)) by exact (fnv_spec t [] _ fnv_start).
  split; [exact F|]. split.
  - pose proof (hex_numeral_hex 32 (fnv fnv_offset t)) as H. rewrite N.mod_small in H; auto.
    exact (fnv1a_bound _ _ F).
  - rewrite <- las_length. apply hex_length.
Qed.
Lemma is_slug_fun e r s s' : is_slug e r s -> is_slug e r s' -> s = s'.
Proof.
  intros (h&F&H&L) (h'&F'&H'&L'). assert (h = h') by (eapply fnv1a_fun; eauto). subst.
  apply las_inj. eapply hex_numeral_inj; eauto. rewrite !las_length. congruence.
Qed.
Lemma is_slug_iff e r s : is_slug e r s <-> s = hash (stringify e) (rsRole r) (rsTitle r).
Proof.
  split; [|intros ->; apply hash_slug]. intro H. eapply is_slug_fun; eauto using hash_slug.
Qed.

(** ** Networks *)
Lemma fold_sset_get {A V} (k : A -> string) (v : A -> V) l m key :
  sget key (fold_left (fun m x => sset (k x) (v x) m) l m) =
  match find (fun x => String.eqb (k x) key) (rev l) with Some x => Some (v x) | None => sget key m end.
Proof.
  revert m. induction l as [|x t IH]; intro m; simpl; auto.
  rewrite IH.
  assert (G : forall l1 l2 : list A, find (fun x => String.eqb (k x) key) (l1 ++ l2)%list =
     match find (fun x => String.eqb (k x) key) l1 with Some y => Some y | None => find (fun x => String.eqb (k x) key) l2 end).
  { induction l1 as [|y l1 IH1]; intro l2; simpl; auto. destruct (String.eqb (k y) key); auto. }
  rewrite G. destruct (find _ (rev t)); auto. simpl.
  rewrite (mget_mset String.eqb seqP). destruct (String.eqb (k x) key); auto.
Qed.
Lemma stringify_slug_of e : forall e', eScheme e = eScheme e' -> eChar e = eChar e' -> e = e'.
Proof. destruct e, e'; simpl; congruence. Qed.

Lemma find_slug_first slug es rs er : find_slug slug es rs = Some er <->
  first_such (fun p => is_slug (fst p) (snd p) slug) (list_prod es rs) er.
Proof.
  unfold find_slug. rewrite find_first_such. split; apply first_such_iff; intros y _;
    rewrite is_slug_iff, String.eqb_eq; tauto.
Qed.
Lemma find_slug_None slug es rs : find_slug slug es rs = None <->
  forall e r, In e es -> In r rs -> ~ is_slug e r slug.
Proof.
  unfold find_slug. rewrite find_None_iff. split.
  - intros H e r He Hr S. apply is_slug_iff in S. specialize (H (e, r)). simpl in H.
    rewrite S in H at 1. rewrite seqb_refl in H. discriminate H. now apply in_prod.
  - intros H [e r] I. apply in_prod_iff in I as [He Hr]. simpl. apply seqb_false. intro E.
    apply (H e r); auto. now apply is_slug_iff.
Qed.
