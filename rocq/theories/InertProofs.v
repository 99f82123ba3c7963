(** * InertProofs: lemmas for InertProps *)
From Coq Require Import String Ascii List Bool Arith NArith ZArith Lia Permutation.
From Verif Require Import GoBase GoSpec GoFacts InstanceSpec PeriodSpec PeriodProofs LinkbaseModel LabelModel FactModel GridModel CalcModel DefModel RenderModel CatalogModel
  ExpressModel UnderscoreModel JsonModel JsonSpec JsonProofs ResponseModel ResponseSpec ResponseProofs InertSpec.
Import ListNotations.
Local Open Scope string_scope.

Lemma inert_app s t : inert s -> inert t -> inert (s ++ t).
Proof.
  induction 1 as [|n s S L M H IH]; intro T; [exact T|]. replace ((utf8 n ++ s) ++ t) with (utf8 n ++ (s ++ t)); [now constructor; auto|].
  clear. induction (utf8 n) as [|c r IH]; cbn; congruence.
Qed.
Lemma inert_char n s : (32 <= n < 128)%N -> ~ In n markup -> inert s -> inert (String (ascii_of_N n) s).
Proof.
  intros L M H. replace (String (ascii_of_N n) s) with (utf8 n ++ s).
  - constructor; auto; [left; lia|lia].
  - unfold utf8. destruct (N.ltb_spec n 128); [reflexivity|lia].
Qed.
Lemma inert_ascii c s : (32 <= N_of_ascii c < 128)%N -> ~ In (N_of_ascii c) markup -> inert s -> inert (String c s).
Proof. intros L M H. rewrite <- (ascii_N_embedding c). apply inert_char; auto. Qed.
Ltac plain := apply inert_ascii; [vm_compute; split; congruence|cbn; intuition discriminate|].
Ltac off := unfold markup; let M := fresh in intro M; cbn [In] in M; decompose [or] M; solve [lia|contradiction].
Lemma hex_inert n s : (n < 16)%N -> inert s -> inert (String (hex_digit n) s).
Proof.
  intros L H. unfold hex_digit, byte. destruct (N.ltb_spec n 10); (apply inert_char; [lia| |exact H]); off.
Qed.
Lemma escape_inert n s : inert s -> inert (unicode_escape n s).
Proof. intro H. unfold unicode_escape. do 2 plain. repeat (apply hex_inert; [apply N.mod_lt; lia|]). exact H. Qed.
Lemma escape_ascii_inert c s : (N_of_ascii c < 128)%N -> inert s -> inert (escape_ascii c s).
Proof.
  intros L H. unfold escape_ascii. cbv zeta.
  destruct (N.eqb_spec (N_of_ascii c) 34); cbn [orb]; [plain; apply inert_ascii; [lia|off|exact H]|].
  destruct (N.eqb_spec (N_of_ascii c) 92); [plain; apply inert_ascii; [lia|off|exact H]|].
  repeat match goal with |- context [N.eqb (N_of_ascii c) ?k] =>
    lazymatch k with 60%N => fail | 62%N => fail | 38%N => fail | _ => destruct (N.eqb_spec (N_of_ascii c) k); [do 2 plain; exact H|] end end.
  destruct (N.ltb_spec (N_of_ascii c) 32); cbn [orb]; [now apply escape_inert|].
  destruct (N.eqb_spec (N_of_ascii c) 60); cbn [orb]; [now apply escape_inert|].
  destruct (N.eqb_spec (N_of_ascii c) 62); cbn [orb]; [now apply escape_inert|].
  destruct (N.eqb_spec (N_of_ascii c) 38); cbn [orb]; [now apply escape_inert|].
  apply inert_ascii; [lia|off|exact H].
Qed.
Lemma inert_big m t s : scalar m -> utf8 m = t -> (128 <= m)%N -> m <> 8232%N -> m <> 8233%N -> inert s -> inert (t ++ s).
Proof. intros S <- L N1 N2 H. constructor; auto; [lia|]. off. Qed.
Lemma json_escape_inert_len n : forall s, (String.length s <= n)%nat -> inert (json_escape s).
Proof.
  induction n as [|n IH]; intros s Hl.
  - destruct s; [constructor|cbn in Hl; lia].
  - destruct s as [|a r]; [constructor|]. cbn [String.length] in Hl.
    cbn [json_escape]. destruct (N.ltb_spec (N_of_ascii a) 128) as [Ea|Ea].
    + apply escape_ascii_inert; auto. apply IH. lia.
    + assert (B : inert (unicode_escape 65533 (json_escape r))) by (apply escape_inert, IH; lia).
      cbv zeta. destruct r as [|b r2]; [exact B|]. cbn [String.length] in Hl. destruct (utf8_2 a b) eqn:E2.
      * apply utf8_2_scalar in E2 as (m&Sm&Em). pose proof (utf8_big _ _ _ _ Em).
        apply (inert_big m (String a (String b ""))); auto; try (apply IH; lia); intros ->; vm_compute in Em; discriminate Em.
      * destruct r2 as [|c r3]; [exact B|]. cbn [String.length] in Hl. destruct (utf8_3 a b c) eqn:E3.
        -- apply utf8_3_scalar in E3 as (m&Sm&Em). pose proof (utf8_big _ _ _ _ Em).
           destruct (is_separator a b c) eqn:Es; [apply escape_inert, IH; lia|].
           apply (inert_big m (String a (String b (String c "")))); auto; try (apply IH; lia);
             intros ->; vm_compute in Em; injection Em as <- <- <-; vm_compute in Es; discriminate Es.
        -- destruct r3 as [|d r4]; [exact B|]. cbn [String.length] in Hl. destruct (utf8_4 a b c d) eqn:E4; [|exact B].
           apply utf8_4_scalar in E4 as (m&Sm&Em). pose proof (utf8_big _ _ _ _ Em).
           apply (inert_big m (String a (String b (String c (String d ""))))); auto; try (apply IH; lia); intros ->; vm_compute in Em; discriminate Em.
Qed.
Lemma quoted_inert s : inert (quoted s).
Proof. unfold quoted. plain. apply inert_app; [now apply (json_escape_inert_len (String.length s))|]. plain. constructor. Qed.
Lemma bool_inert b : inert (jbool b).
Proof. destruct b; cbn; repeat plain; constructor. Qed.
Lemma join_inert l : Forall inert l -> inert (join "," l).
Proof.
  induction 1 as [|x l Hx H IH]; [constructor|]. destruct l as [|y l]; [exact Hx|]. change (join "," (x :: y :: l)) with (x ++ "," ++ join "," (y :: l)).
  apply inert_app; auto. apply inert_app; auto. plain. constructor.
Qed.
Lemma arr_inert {A} (f : A -> string) l : (forall x, inert (f x)) -> inert (jarr f l).
Proof.
  intro H. unfold jarr. apply inert_app; [plain; constructor|]. apply inert_app; [|plain; constructor].
  apply join_inert. apply Forall_forall. intros y Hy. apply in_map_iff in Hy as (x&<-&_). auto.
Qed.
Lemma obj_inert fields : Forall (fun kv => inert (snd kv)) fields -> inert (jobj fields).
Proof.
  intro H. unfold jobj. apply inert_app; [plain; constructor|]. apply inert_app; [|plain; constructor].
  apply join_inert. apply Forall_forall. intros y Hy. apply in_map_iff in Hy as (x&<-&Hx). rewrite Forall_forall in H.
  apply inert_app; [apply quoted_inert|]. apply inert_app; [plain; constructor|auto].
Qed.
Lemma map_inert {A} (f : A -> string) m : (forall x, inert (f x)) -> inert (jmap f m).
Proof. intro H. unfold jmap. apply obj_inert. apply Forall_forall. intros y Hy. apply in_map_iff in Hy as (x&<-&_). apply H. Qed.
Lemma opt_inert {A} name (f : A -> string) o : (forall x, inert (f x)) -> Forall (fun kv => inert (snd kv)) (jopt name f o).
Proof. intro H. destruct o; repeat constructor. apply H. Qed.
Lemma null_inert : inert "null".
Proof. repeat plain; constructor. Qed.
Lemma digit_inert c d : digit c d -> inert (String c "").
Proof. intro D. unfold digit in D. cbn [In] in D. decompose [or] D; try contradiction; match goal with H : (_, _) = (_, _) |- _ => injection H as <- _ end; plain; constructor. Qed.
Lemma numeral_inert s z : numeral s z -> inert s.
Proof. induction 1 as [c d D|s n c d H IH D]; [eapply digit_inert; eauto|]. apply inert_app; auto. eapply digit_inert; eauto. Qed.
Lemma int_inert n : inert (jint n).
Proof. apply (numeral_inert _ (Z.of_nat n)). apply itoa_decimal. lia. Qed.

(** ** The encoders *)
Ltac fieldwise := repeat match goal with
  | |- inert (quoted _) => apply quoted_inert
  | |- inert (jbool _) => apply bool_inert
  | |- inert (jint _) => apply int_inert
  | |- inert "null" => apply null_inert
  | |- inert (jmap _ _) => apply map_inert; intro
  | |- inert (jarr _ _) => apply arr_inert; intro
  | |- inert (jobj _) => apply obj_inert
  | |- inert (match ?x with _ => _ end) => destruct x
  | |- Forall _ [] => apply Forall_nil
  | |- Forall _ (_ :: _) => apply Forall_cons; cbn [snd]
  | |- Forall _ (_ ++ _) => apply Forall_app; split
  | |- Forall _ (jopt _ _ _) => apply opt_inert; intro
  | |- Forall _ (if ?x then _ else _) => destruct x
  end.
Lemma langs_inert l : inert (jlangs l). Proof. unfold jlangs. fieldwise. Qed.
Lemma labels_inert p : inert (jlabels p). Proof. unfold jlabels. fieldwise. apply langs_inert. Qed.
Lemma labelled_inert x : inert (jlabelled x). Proof. unfold jlabelled. fieldwise. apply labels_inert. Qed.
Lemma cell_inert c : inert (jcell c). Proof. unfold jcell. fieldwise. apply labelled_inert. Qed.
Lemma void_inert c : inert (jvoid c). Proof. unfold jvoid. fieldwise; apply labelled_inert. Qed.
Lemma fact_inert m : inert (jfact m). Proof. unfold jfact, jexpression. fieldwise. Qed.
Lemma columns_inert p m v : Forall (fun kv => inert (snd kv)) (jcolumns p m v).
Proof. unfold jcolumns. fieldwise; auto using langs_inert, cell_inert, void_inert. Qed.
Lemma quadrant_inert f g n : Forall (fun kv => inert (snd kv)) (jquadrant f g n).
Proof. unfold jquadrant. fieldwise; auto using fact_inert. Qed.
Lemma p_grid_inert p : inert (jp_grid p).
Proof. unfold jp_grid, jindented. fieldwise; auto using labels_inert, columns_inert, quadrant_inert. Qed.
Lemma item_inert s : inert (jitem s).
Proof. unfold jitem, jcontributing. fieldwise; auto using labels_inert, columns_inert, quadrant_inert. Qed.
Lemma c_grid_inert b l : inert (jc_grid b l).
Proof. unfold jc_grid. fieldwise. apply item_inert. Qed.
Lemma root_inert r : inert (jroot r).
Proof. unfold jroot, jprimary, jmember. fieldwise; auto using labels_inert, columns_inert, quadrant_inert, labelled_inert. Qed.
Lemma link_inert l : inert (jlink l).
Proof. unfold jlink, jhc, jhd, jdd, jdm. fieldwise. Qed.
Lemma d_grid_inert d : inert (jd_grid d).
Proof. unfold jd_grid, jdrs. fieldwise; auto using root_inert, labelled_inert, link_inert. Qed.
Lemma rset_inert r : inert (jrset r). Proof. unfold jrset. fieldwise. Qed.
Lemma subject_inert s : inert (jsubject s). Proof. unfold jsubject, jentity. fieldwise. Qed.
Lemma renderable_inert b r : inert (jrenderable b r).
Proof.
  unfold jrenderable. destruct (rnGrids r) as [[g roles] ls]. fieldwise; auto using rset_inert, subject_inert, p_grid_inert, d_grid_inert, c_grid_inert.
Qed.
Lemma catalog_inert c : inert (jcatalog c).
Proof. unfold jcatalog. fieldwise; auto using rset_inert, subject_inert. Qed.
Lemma expressable_inert x : inert (jexpressable x).
Proof. unfold jexpressable. fieldwise; auto using labels_inert, langs_inert, void_inert, cell_inert, fact_inert. Qed.

Lemma utf8_big n c : scalar n -> (128 <= n)%N -> In c (list_ascii_of_string (utf8 n)) -> (128 <= N_of_ascii c)%N.
Proof.
  intros S L. unfold scalar in S.
  assert (M : forall k, (128 <= 128 + k mod 64 < 256)%N) by (intro k; pose proof (N.mod_lt k 64 ltac:(lia)); lia).
  unfold utf8. destruct (N.ltb_spec n 128); [lia|].
  destruct (N.ltb_spec n 2048); [|destruct (N.ltb_spec n 65536)]; cbn [list_ascii_of_string In].
  - assert (n / 64 < 32)%N by (apply N.div_lt_upper_bound; lia). intros [<-|[<-|[]]]; rewrite Ascii.N_ascii_embedding; auto; try lia; apply M.
  - assert (n / 4096 < 16)%N by (apply N.div_lt_upper_bound; lia). intros [<-|[<-|[<-|[]]]]; rewrite Ascii.N_ascii_embedding; auto; try lia; apply M.
  - assert (n / 262144 < 5)%N by (apply N.div_lt_upper_bound; lia). intros [<-|[<-|[<-|[<-|[]]]]]; rewrite Ascii.N_ascii_embedding; auto; try lia; apply M.
Qed.
Lemma inert_bytes s : inert s -> forall c, In c (list_ascii_of_string s) -> (128 <= N_of_ascii c)%N \/ (32 <= N_of_ascii c)%N /\ ~ In (N_of_ascii c) markup.
Proof.
  assert (A : forall a b, list_ascii_of_string (a ++ b) = (list_ascii_of_string a ++ list_ascii_of_string b)%list).
  { induction a; intro b; cbn; [reflexivity|now rewrite IHa]. }
  induction 1 as [|n s S L M I IH]; intros c H; [destruct H|]. rewrite A in H. apply in_app_or in H as [H|H]; [|auto].
  destruct (N.ltb_spec n 128) as [B|B]; [|left; eapply utf8_big; eauto]. right. unfold utf8 in H. destruct (N.ltb_spec n 128); [|lia].
  destruct H as [<-|[]]. rewrite Ascii.N_ascii_embedding by lia. auto.
Qed.
