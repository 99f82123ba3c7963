(** Lemmas about the transition system of CacheModel. *)
From Coq Require Import Strings.String Strings.Ascii Lists.List Bool NArith Lia Arith.
From Verif Require Import GoBase GoSpec GoFacts CatalogModel CacheModel CacheSpec LabelProofs.
Import ListNotations.
Open Scope string_scope.

Section Proofs.
Context {folder hyd schema names utr : Type}.
Notation value := (value hyd schema names utr).
Notation prog := (prog hyd schema names utr).
Notation state := (state hyd schema names utr).
Notation goroutine := (goroutine hyd schema names utr).
Variable sv : services folder hyd schema names utr.
Variables dry injected : bool.
Notation program := (program sv dry injected).
Notation step := (step sv dry injected).
Notation run := (run sv dry injected).

(** ** The requests made so far *)
Lemma flat_wake l (a : list (option request * goroutine)) :
  flat_map (fun t => match fst t with Some q => [q] | None => [] end) (map (fun t => (fst t, wake l (snd t))) a)
  = flat_map (fun t => match fst t with Some q => [q] | None => [] end) a.
Proof. induction a as [|[q g] a IH]; cbn; auto. now rewrite IH. Qed.

Lemma gstep_requests (s s' : state) : gstep s s' -> requests s' = requests s.
Proof.
  intros H. destruct H; unfold requests; cbn [threads];
    rewrite ?flat_map_app; cbn [flat_map fst]; rewrite ?flat_map_app, ?flat_wake; cbn; now rewrite ?app_nil_r.
Qed.
Lemma step_requests s s' : step s s' -> forall q, In q (requests s) -> In q (requests s').
Proof.
  intros [s1 s2 _ H|c m ts q' _] q.
  - now rewrite (gstep_requests _ _ H).
  - unfold requests. cbn. rewrite flat_map_app. intros Hq. apply in_or_app. now left.
Qed.
Lemma run_requests s s' : run s s' -> forall q, In q (requests s) -> In q (requests s').
Proof. induction 1; eauto using step_requests. Qed.

(** ** Behaviours of a program when lookups return legal values *)
Section Legal.
Variable L : string -> value -> Prop.

Fixpoint may (p : prog) (r : res value) : Prop :=
  match p with
  | Answer a => r = a
  | Lookup _ get key hit miss =>
      may miss r \/
      (get = true /\ exists v, L key v /\ match hit v with Some p' => may p' r | None => r = Panic end)
  | Compute X P k => exists x, P x /\ may (k x) r
  | Spawn _ _ _ k => may k r
  | Crash => False
  end.

(** The program may end the process. *)
Fixpoint mayd (p : prog) : Prop :=
  match p with
  | Answer _ => False
  | Lookup _ get key hit miss =>
      mayd miss \/
      (get = true /\ exists v, L key v /\ match hit v with Some p' => mayd p' | None => False end)
  | Compute X P k => exists x, P x /\ mayd (k x)
  | Spawn _ _ _ k => mayd k
  | Crash => True
  end.

(** All writes of the program are legal. *)
Fixpoint wok (p : prog) : Prop :=
  match p with
  | Answer _ => True
  | Lookup _ get key hit miss =>
      wok miss /\
      (get = true -> forall v, L key v -> match hit v with Some p' => wok p' | None => True end)
  | Compute X P k => forall x, P x -> wok (k x)
  | Spawn _ key v k => L key v /\ wok k
  | Crash => True
  end.

(** No type assertion of the program fails, and, if it is [live], no call hangs. *)
Fixpoint safe (live : Prop) (p : prog) : Prop :=
  match p with
  | Answer _ => True
  | Lookup _ get key hit miss =>
      safe live miss /\
      (get = true -> forall v, L key v -> match hit v with Some p' => safe live p' | None => False end)
  | Compute X P k => (live -> exists x, P x) /\ forall x, P x -> safe live (k x)
  | Spawn _ _ _ k => safe live k
  | Crash => True
  end.

Definition gmay (g : goroutine) (r : res value) : Prop :=
  match g with
  | TRun p => may p r
  | TWait l get key hit miss | TRead l get key hit miss => may (Lookup l get key hit miss) r
  | TLeave _ p => may p r
  | _ => False
  end.
Definition gmayd (g : goroutine) : Prop :=
  match g with
  | TRun p => mayd p
  | TWait l get key hit miss | TRead l get key hit miss => mayd (Lookup l get key hit miss)
  | TLeave _ p => mayd p
  | _ => False
  end.
Definition gwok (g : goroutine) : Prop :=
  match g with
  | TRun p => wok p
  | TWait l get key hit miss | TRead l get key hit miss => wok (Lookup l get key hit miss)
  | TLeave _ p => wok p
  | WStart _ key v | WWait _ key v | WIn _ key v => L key v
  | _ => True
  end.
Definition gsafe (live : Prop) (g : goroutine) : Prop :=
  match g with
  | TRun p => safe live p
  | TWait l get key hit miss | TRead l get key hit miss => safe live (Lookup l get key hit miss)
  | TLeave _ p => safe live p
  | _ => True
  end.

Definition tinv (t : option request * goroutine) : Prop :=
  gwok (snd t) /\ (forall q, fst t = Some q -> forall r, gmay (snd t) r -> may (program q) r) /\
  (gmayd (snd t) -> exists q, fst t = Some q /\ mayd (program q)).
Definition inv (s : state) : Prop :=
  (forall k v, In (k, v) (stored s) -> L k v) /\ Forall tinv (threads s).

Lemma tinv_wake l t : tinv t -> tinv (fst t, wake l (snd t)).
Proof.
  destruct t as [q g]; destruct g; cbn; auto. destruct (lockid_eqb _ _); cbn; auto.
Qed.

Lemma mget_In {V} k (c : list (string * V)) v : mget String.eqb k c = Some v -> In (k, v) c.
Proof.
  induction c as [|[k' v'] c IH]; cbn; [discriminate|]. destruct (String.eqb_spec k' k) as [->|].
  - intros [= ->]. now left.
  - intros H. right; auto.
Qed.
Lemma mset_In {V} k v (c : list (string * V)) k' v' :
  In (k', v') (mset String.eqb k v c) -> In (k', v') c \/ (k' = k /\ v' = v).
Proof.
  induction c as [|[a w] c IH]; cbn.
  - intros [[= <- <-]|[]]. now right.
  - destruct (String.eqb_spec a k) as [->|]; cbn.
    + intros [[= <- <-]|H]; auto.
    + intros [[= <- <-]|H]; auto. apply IH in H. tauto.
Qed.

Lemma after_get_tinv c l get key hit miss q :
  (forall k v, In (k, v) c -> L k v) ->
  tinv (q, TRead l get key hit miss) -> tinv (q, after_get c l get key hit miss).
Proof.
  intros Hc (Hw & Hm & Hd). cbn in Hw, Hm, Hd. destruct Hw as [Hw1 Hw2]. unfold after_get.
  destruct (if get then mget String.eqb key c else None) as [v|] eqn:E.
  - destruct get; [|discriminate]. apply mget_In in E. apply Hc in E.
    specialize (Hw2 eq_refl v E).
    destruct (hit v) as [p|] eqn:Eh; split; cbn; auto.
    + split; [intros q' Hq r Hr; apply Hm; auto|intros H; apply Hd]; right; split; auto; exists v; now rewrite Eh.
    + split; [intros q' Hq r Hr; apply Hm; auto|contradiction]. right. split; auto. exists v. now rewrite Eh.
  - repeat split; cbn; auto.
Qed.

Lemma Forall_split {A} (P : A -> Prop) a x b : Forall P (a ++ x :: b) <-> Forall P a /\ P x /\ Forall P b.
Proof. rewrite Forall_app, Forall_cons_iff. tauto. Qed.

Lemma Forall_wake l a : Forall tinv a -> Forall tinv (map (fun t => (fst t, wake l (snd t))) a).
Proof. rewrite Forall_map. apply Forall_impl. intros t. apply tinv_wake. Qed.

Lemma gstep_inv s s' : gstep s s' -> inv s -> inv s'.
Proof.
  intros H [Hc Ht].
  destruct H; unfold inv in *; cbn [stored threads] in *; apply Forall_split in Ht as (Ha & Hx & Hb);
    (split; [try exact Hc|]); try (apply Forall_split; split; [auto|split; [|auto]]); auto using Forall_wake.
  - destruct Hx as (Hw & Hm & Hd); repeat split; cbn in *; auto; [|eauto]. intros q' Hq r Hr. apply Hm; auto. eauto.
  - destruct Hx as (Hw & Hm & Hd); repeat split; cbn in *; tauto.
  - destruct Hx as (Hw & Hm & Hd). apply Forall_app. split; auto. constructor; auto. repeat split; cbn in *; try tauto.
  - now apply after_get_tinv.
  - intros k0 v0 Hin. apply mset_In in Hin as [Hin|[-> ->]]; auto. apply Hx.
  - destruct Hx as (Hw & Hm & Hd); repeat split; cbn in *; tauto.
Qed.

Lemma run_inv s s' : (forall q, In q (requests s') -> wok (program q)) ->
  run s s' -> inv s -> inv s'.
Proof.
  intros Hq Hr. induction Hr as [s|s s1 s2 Hr IH Hs]; auto. intros Hi.
  assert (H1 : inv s1).
  { apply IH; auto. intros q Hin. apply Hq. now apply (step_requests _ _ Hs). }
  destruct Hs as [s' s'' _ Hs|c m ts q _]; [eapply gstep_inv; eauto|].
  destruct H1 as [Hc Ht]. split; auto. cbn. apply Forall_app. split; auto. constructor; auto.
  repeat split; cbn; eauto.
  - apply Hq. unfold requests. cbn. rewrite flat_map_app. apply in_or_app. right. now left.
  - now intros q' [= ->].
Qed.

Lemma inv_answered s q r : inv s -> answered s q r -> may (program q) r.
Proof.
  intros [_ Ht] Ha. rewrite Forall_forall in Ht. destruct (Ht _ Ha) as (_ & H & _). now apply (H q).
Qed.
Lemma inv_ended s : inv s -> ended s -> exists q, In q (requests s) /\ mayd (program q).
Proof.
  intros [_ Ht] [q Hin]. rewrite Forall_forall in Ht. destruct (Ht _ Hin) as (_ & _ & H). cbn in H.
  destruct (H I) as (q' & -> & H'). exists q'. split; auto. unfold requests. apply in_flat_map. eexists. split; eauto. now left.
Qed.
End Legal.

(** ** path/filepath.Ext *)
Lemma ext_from_app acc base e :
  e <> "" -> (exists t, e = String "." t /\ free_of "." t /\ free_of "/" t) ->
  ext_from acc (base ++ e) = e.
Proof.
  intros Hne (t & -> & H1 & H2). revert acc. induction base as [|c base IH]; intros acc; cbn.
  - assert (forall a, ext_from a t = a) as ->; auto.
    clear Hne acc. induction t as [|x t IH]; intros a; cbn; auto.
    destruct H1 as [H1 H1'], H2 as [H2 H2'].
    destruct (Ascii.eqb_spec x "."); [contradiction|]. destruct (Ascii.eqb_spec x "/"); [contradiction|]. auto.
  - apply IH.
Qed.
Lemma ext_from_cases acc s :
  ext_from acc s = acc \/ ext_from acc s = "" \/ exists base, s = base ++ ext_from acc s.
Proof.
  revert acc. induction s as [|c s IH]; intros acc; cbn; auto.
  destruct (Ascii.eqb_spec c "."); [|destruct (Ascii.eqb_spec c "/")].
  - destruct (IH (String c s)) as [E|[E|[b E]]]; auto.
    + right; right. exists "". now rewrite E.
    + right; right. exists (String c b). cbn. now rewrite <- E.
  - destruct (IH "") as [E|[E|[b E]]]; auto.
    right; right. exists (String c b). cbn. now rewrite <- E.
  - destruct (IH acc) as [E|[E|[b E]]]; auto.
    right; right. exists (String c b). cbn. now rewrite <- E.
Qed.
Lemma path_ext_iff s t : free_of "." t -> free_of "/" t ->
  (path_ext s = String "." t <-> exists base, s = base ++ String "." t).
Proof.
  intros H1 H2. unfold path_ext. split.
  - intros E. destruct (ext_from_cases "" s) as [E'|[E'|[b E']]]; try (rewrite E in E'; discriminate).
    rewrite E in E'. eauto.
  - intros [b ->]. apply ext_from_app; [discriminate|]. eauto.
Qed.

Lemma names_document_iff slug h :
  ((String.eqb (path_ext slug) ".xhtml" || String.eqb (path_ext slug) ".htm")
     && String.eqb (entry_name sv (folder_of sv h)) slug)%bool = true <-> names_document sv slug h.
Proof.
  unfold names_document. rewrite andb_true_iff, orb_true_iff, !String.eqb_eq.
  rewrite (path_ext_iff slug "xhtml"), (path_ext_iff slug "htm") by (cbn; intuition discriminate).
  split.
  - intros [[[b H]|[b H]] H']; split; eauto.
  - intros [H' [b [H|H]]]; split; eauto.
Qed.

(** ** What may be stored under a key *)
Definition kept (P : res (option string) -> Prop) (v : value) : Prop :=
  (exists b, v = VBytes b /\ P (Ok b)) \/ (v = VBytes None /\ exists m, P (Err m)).

Definition holds (a : resource) (v : value) : Prop :=
  match a with
  | ResFolder id =>
      (exists h, v = VHyd (Some h) /\ hydrated sv id (Ok h)) \/
      (v = VHyd None /\ exists f m, discover sv id (Ok f) /\ hydrate sv f (Err m))
  | ResCatalog id => exists h, hydrated sv id (Ok h) /\ kept (catalog sv h) v
  | ResRender id slug => exists h, hydrated sv id (Ok h) /\ kept (document_or_renderable sv slug h) v
  | ResFact id name contextref =>
      exists h, hydrated sv id (Ok h) /\ kept (expressable sv name contextref h) v
  | ResSchema url => exists s, v = VSchema s /\ global_schema sv url (Ok s)
  | ResNames => exists n, v = VNames n /\ entity_names sv (Ok n)
  | ResUtr => exists u, v = VUtr u /\ unit_registry sv (Ok u)
  end.

Definition legal (qs : list request) (key : string) (v : value) : Prop :=
  exists q a, In q qs /\ In a (resources q) /\ resource_key a = key /\ holds a v.

Definition respond (q : request) : hyd -> res (option string) -> Prop :=
  match q with
  | RCatalog _ => catalog sv
  | RRender _ slug => document_or_renderable sv slug
  | RFact _ name contextref => expressable sv name contextref
  | _ => fun _ _ => False
  end.

(** The ways in which an error turns into something else *)
Definition masked (id : string) (P : hyd -> res (option string) -> Prop) (r : res value) : Prop :=
  (r = Panic /\ exists f m, discover sv id (Ok f) /\ hydrate sv f (Err m)) \/
  (r = Ok (VBytes None) /\ exists h m, hydrated sv id (Ok h) /\ P h (Err m)).

Definition explained (q : request) (r : res value) : Prop :=
  uncached sv injected q r \/
  match q with
  | RCatalog id | RRender id _ | RFact id _ _ => masked id (respond q) r
  | _ => False
  end.

Section Programs.
Variable L : string -> value -> Prop.

Lemma may_save key v k r : may L (save dry key v k) r <-> may L k r.
Proof. unfold save. destruct dry; cbn; tauto. Qed.
Lemma wok_save key v k : (dry = false -> L key v) -> wok L k -> wok L (save dry key v k).
Proof. unfold save. destruct dry; cbn; auto. Qed.
Lemma safe_save live key v k : safe L live k -> safe L live (save dry key v k).
Proof. unfold save. destruct dry; cbn; auto. Qed.

Lemma may_with id k r : (dry = false -> forall v, L id v -> holds (ResFolder id) v) ->
  may L (with_hydratable sv dry id k) r ->
  (exists m, hydrated sv id (Err m) /\ r = Err m) \/
  (hydrated sv id Panic /\ r = Panic) \/
  (exists h, hydrated sv id (Ok h) /\ may L (k (Some h)) r) \/
  ((exists f m, discover sv id (Ok f) /\ hydrate sv f (Err m)) /\ dry = false /\ may L (k None) r).
Proof.
  intros HL. cbn. intros [(d & Hd & H)|(Hg & v & Hv & H)].
  - destruct d as [f|m|]; cbn in H.
    + destruct H as ([x|] & Hx & H); [|contradiction]. cbn in Hx. destruct x as [h|m|]; cbn in H.
      * apply may_save in H. right; right; left. exists h. split; auto. eapply hy_found; eauto.
      * apply may_save in H. cbn in H. left. exists m. split; auto. eapply hy_found; eauto.
      * right; left. split; auto. eapply hy_found; eauto.
    + left. eexists. split; [|eauto]. now apply hy_missing.
    + right; left. split; auto. now apply hy_panic.
  - assert (Hdry : dry = false) by (destruct dry; [discriminate|auto]).
    destruct (HL Hdry v Hv) as [(h & -> & Hh)|(-> & Hh)]; cbn in H.
    + right; right; left. eauto.
    + right; right; right. auto.
Qed.

Lemma wok_with id k : (dry = false -> forall v, holds (ResFolder id) v -> L id v) ->
  (dry = false -> forall v, L id v -> holds (ResFolder id) v) ->
  (forall h, hydrated sv id (Ok h) -> wok L (k (Some h))) -> wok L (k None) ->
  wok L (with_hydratable sv dry id k).
Proof.
  intros H1 H2 Hk Hn. cbn. split.
  - intros d Hd. destruct d as [f|m|]; cbn; auto. intros [x|] Hx; [|exact I]. cbn in Hx. destruct x as [h|m|]; cbn; auto.
    + apply wok_save; [intros E; apply H1; auto; left|]; [|apply Hk]; try (exists h; split; auto); eapply hy_found; eauto.
    + apply wok_save; [intros E; apply H1; auto; right|exact I]; eauto.
  - intros Hg v Hv. assert (Hdry : dry = false) by (destruct dry; [discriminate|auto]).
    destruct (H2 Hdry v Hv) as [(h & -> & Hh)|(-> & Hh)]; cbn; auto.
Qed.

Lemma outcome_some {X} (P : X -> Prop) (D : Prop) : D \/ (exists x, P x) -> exists o, outcome P D o.
Proof. intros [H|[x H]]; [exists None|exists (Some x)]; auto. Qed.
Lemma safe_with (live : Prop) id k :
  (live -> (exists r, discover sv id r) /\ forall f, discover sv id (Ok f) -> hydrate_dies sv f \/ exists r, hydrate sv f r) ->
  (dry = false -> forall v, L id v -> holds (ResFolder id) v) ->
  (forall h, match h with Some x => hydrated sv id (Ok x) | None => True end -> safe L live (k h)) ->
  safe L live (with_hydratable sv dry id k).
Proof.
  intros Hr H2 Hk. cbn. split.
  - split; [intros Hl; now apply Hr|]. intros [f|m|] Hf; cbn; auto. split; [intros Hl; now apply outcome_some, Hr|].
    intros [[h|m|]|] Hh; cbn; auto; apply safe_save; cbn; auto. apply Hk. eapply hy_found; eauto.
  - intros Hg v Hv. assert (Hdry : dry = false) by (destruct dry; [discriminate|auto]).
    destruct (H2 Hdry v Hv) as [(h & -> & Hh)|(-> & Hh)]; cbn; auto.
Qed.

Lemma may_and_save key P D r : may L (and_save dry key P D) r -> exists a, P a /\ r = sent a.
Proof.
  cbn. intros ([a|] & Ha & H); [|contradiction]. cbn in Ha. exists a. split; auto. destruct a as [b|m|]; cbn in H |- *; auto;
    apply may_save in H; auto.
Qed.
Lemma wok_and_save key (P : res (option string) -> Prop) D :
  (dry = false -> forall v, kept P v -> L key v) -> wok L (and_save dry key P D).
Proof.
  intros H. cbn. intros [a|] Ha; [|exact I]. cbn in Ha. destruct a as [b|m|]; cbn; auto; apply wok_save; cbn; auto; intros E; apply H; auto;
    [left|right]; eauto.
Qed.
Lemma safe_and_save (live : Prop) key (P : res (option string) -> Prop) (D : Prop) :
  (live -> D \/ exists r, P r) -> safe L live (and_save dry key P D).
Proof. intros HP. cbn. split; [intros Hl; now apply outcome_some, HP|]. intros [[b|m|]|] _; cbn; auto; now apply safe_save. Qed.
Lemma on_hyd_returns id h (P : hyd -> res (option string) -> Prop) :
  match h with Some x => hydrated sv id (Ok x) | None => True end ->
  (forall h, hydrated sv id (Ok h) -> exists r, P h r) -> exists r, on_hyd h P r.
Proof. destruct h; cbn; eauto. Qed.

(** The second lookup of the catalog and of a fact *)
Lemma may_bytes l key miss r Q : (dry = false -> forall v, L key v -> exists b, v = VBytes b /\ Q b) ->
  may L (Lookup l (negb dry) key as_bytes miss) r ->
  may L miss r \/ (dry = false /\ exists b, r = Ok (VBytes b) /\ Q b).
Proof.
  intros HL. cbn. intros [H|(Hg & v & Hv & H)]; auto. right.
  assert (Hdry : dry = false) by (destruct dry; [discriminate|auto]).
  destruct (HL Hdry v Hv) as (b & -> & Hb). cbn in H. eauto.
Qed.
End Programs.

Lemma kept_explained id P r b h :
  hydrated sv id (Ok h) -> kept (P h) (VBytes b) -> r = Ok (VBytes b) ->
  served sv id P r \/ masked id P r.
Proof.
  intros Hh [(b' & [= <-] & HP)|([= ->] & m & HP)] ->.
  - left. right; right. exists h, (Ok b). auto.
  - right. right. eauto.
Qed.

(** With separate keys, every lookup finds what the request itself would have
    computed. *)
Section Separate.
Variable qs : list request.
Hypothesis Hsep : dry = false -> separate qs.
Hypothesis Hsepg : injected = true -> separate qs.

Lemma separate_holds q a v : separate qs -> In q qs -> In a (resources q) -> legal qs (resource_key a) v -> holds a v.
Proof.
  intros Hs Hq Ha (q' & a' & Hq' & Ha' & E & Hh). now rewrite (Hs q q' a a' Hq Hq' Ha Ha' (eq_sym E)).
Qed.
Lemma holds_legal q a v : In q qs -> In a (resources q) -> holds a v -> legal qs (resource_key a) v.
Proof. intros. exists q, a. auto. Qed.

Lemma may_program q r : In q qs -> may (legal qs) (program q) r -> explained q r.
Proof.
  intros Hq H. unfold explained.
  destruct q as [id|id slug|id name cr|url| |].
  - (* catalog *)
    assert (HF : dry = false -> forall v, legal qs id v -> holds (ResFolder id) v).
    { intros E v Hv. apply (separate_holds (RCatalog id)); cbn; auto. }
    assert (HR : dry = false -> forall v, legal qs (id ++ "/") v ->
              exists b, v = VBytes b /\ exists h, hydrated sv id (Ok h) /\ kept (catalog sv h) (VBytes b)).
    { intros E v Hv. destruct (separate_holds (RCatalog id) (ResCatalog id) v) as (h & Hh & K); cbn; auto.
      destruct K as [(b & -> & K)|(-> & m & K)]; eexists; split; eauto; exists h; split; auto; [left|right]; eauto. }
    apply may_with in H; auto. cbn [uncached]. unfold served.
    destruct H as [H|[H|[(h & Hh & H)|(Hh & E & H)]]]; eauto.
    + apply (may_bytes _ _ _ _ _ _ HR) in H. destruct H as [H|(E & b & -> & h' & Hh' & K)].
      * apply may_and_save in H as (a & Ha & ->). left. right; right. exists h, a. auto.
      * now apply (kept_explained id (catalog sv) _ b h').
    + apply (may_bytes _ _ _ _ _ _ HR) in H. destruct H as [H|(_ & b & -> & h' & Hh' & K)].
      * apply may_and_save in H as (a & Ha & ->). cbn in Ha. subst a. right. left. auto.
      * now apply (kept_explained id (catalog sv) _ b h').
  - (* renderable *)
    assert (HF : dry = false -> forall v, legal qs id v -> holds (ResFolder id) v).
    { intros E v Hv. apply (separate_holds (RRender id slug)); cbn; auto. }
    assert (HR : dry = false -> forall v, legal qs (id ++ "/" ++ slug) v ->
              exists b, v = VBytes b /\ exists h, hydrated sv id (Ok h) /\ kept (document_or_renderable sv slug h) (VBytes b)).
    { intros E v Hv. destruct (separate_holds (RRender id slug) (ResRender id slug) v) as (h & Hh & K); cbn; auto.
      destruct K as [(b & -> & K)|(-> & m & K)]; eexists; split; eauto; exists h; split; auto; [left|right]; eauto. }
    cbn [uncached]. apply (may_bytes _ _ _ _ _ _ HR) in H.
    destruct H as [H|(E & b & -> & h' & Hh' & K)]; [|now apply (kept_explained id (document_or_renderable sv slug) _ b h')].
    apply may_with in H; auto. unfold served.
    destruct H as [H|[H|[(h & Hh & H)|(Hh & E & H)]]]; eauto.
    + left. right; right. exists h.
      pose proof (names_document_iff slug h) as Hn. unfold document_or_renderable.
      destruct (_ && _)%bool.
      * assert (Hn' : names_document sv slug h) by now apply Hn.
        destruct (doc_bytes sv (folder_of sv h)) as [d|].
        -- apply may_save in H. cbn in H. exists (Ok (Some d)). eauto.
        -- cbn in H. exists Panic. eauto.
      * assert (Hn' : ~ names_document sv slug h) by (intros Hc; apply Hn in Hc; discriminate).
        apply may_and_save in H as (a & Ha & ->). exists a. auto.
    + cbn in H. subst r. right. left. auto.
  - (* fact *)
    assert (HF : dry = false -> forall v, legal qs id v -> holds (ResFolder id) v).
    { intros E v Hv. apply (separate_holds (RFact id name cr)); cbn; auto. }
    assert (HR : dry = false -> forall v, legal qs (fact_key id name cr) v ->
              exists b, v = VBytes b /\ exists h, hydrated sv id (Ok h) /\ kept (expressable sv name cr h) (VBytes b)).
    { intros E v Hv. destruct (separate_holds (RFact id name cr) (ResFact id name cr) v) as (h & Hh & K); cbn; auto.
      destruct K as [(b & -> & K)|(-> & m & K)]; eexists; split; eauto; exists h; split; auto; [left|right]; eauto. }
    apply may_with in H; auto. cbn [uncached]. unfold served.
    destruct H as [H|[H|[(h & Hh & H)|(Hh & E & H)]]]; eauto.
    + apply (may_bytes _ _ _ _ _ _ HR) in H. destruct H as [H|(E & b & -> & h' & Hh' & K)].
      * apply may_and_save in H as (a & Ha & ->). left. right; right. exists h, a. auto.
      * now apply (kept_explained id (expressable sv name cr) _ b h').
    + apply (may_bytes _ _ _ _ _ _ HR) in H. destruct H as [H|(_ & b & -> & h' & Hh' & K)].
      * apply may_and_save in H as (a & Ha & ->). cbn in Ha. subst a. right. left. auto.
      * now apply (kept_explained id (expressable sv name cr) _ b h').
  - (* schema *)
    left. cbn [uncached]. unfold global_answer. cbn [program CacheModel.program] in H.
    unfold hydrate_global_schema in H. destruct injected; [|exact H].
    destruct H as [(a & Ha & H)|(_ & v & Hv & H)].
    + exists a. split; auto. destruct a; cbn in H; auto.
    + apply (separate_holds (RSchema url) (ResSchema url)) in Hv as (s & -> & Hs); cbn; auto.
      exists (Ok s). auto.
  - left. cbn [uncached]. unfold global_answer. cbn [program CacheModel.program] in H.
    unfold hydrate_entity_names in H. destruct injected; [|exact H].
    destruct H as [(a & Ha & H)|(_ & v & Hv & H)].
    + exists a. split; auto. destruct a; cbn in H; auto.
    + apply (separate_holds RNames ResNames) in Hv as (s & -> & Hs); cbn; auto.
      exists (Ok s). auto.
  - left. cbn [uncached]. unfold global_answer. cbn [program CacheModel.program] in H.
    unfold hydrate_unit_type_registry in H. destruct injected; [|exact H].
    destruct H as [(a & Ha & H)|(_ & v & Hv & H)].
    + exists a. split; auto. destruct a; cbn in H; auto.
    + apply (separate_holds RUtr ResUtr) in Hv as (s & -> & Hs); cbn; auto.
      exists (Ok s). auto.
Qed.

(** The process ends only in a call made for the request itself. *)
Lemma mayd_save (L : string -> value -> Prop) key v k : mayd L (save dry key v k) <-> mayd L k.
Proof. unfold save. destruct dry; cbn; tauto. Qed.
Lemma mayd_bytes (L : string -> value -> Prop) l get key miss :
  mayd L (Lookup l get key as_bytes miss) -> mayd L miss.
Proof. cbn. intros [H|(_ & v & _ & H)]; auto. destruct v; contradiction. Qed.
Lemma mayd_and_save (L : string -> value -> Prop) key P (D : Prop) : mayd L (and_save dry key P D) -> D.
Proof.
  cbn. intros ([a|] & Ha & H); auto. destruct a as [b|m|]; cbn in H; try contradiction; apply mayd_save in H; contradiction.
Qed.
Lemma mayd_with (L : string -> value -> Prop) id k : (dry = false -> forall v, L id v -> holds (ResFolder id) v) ->
  mayd L (with_hydratable sv dry id k) ->
  (exists f, discover sv id (Ok f) /\ hydrate_dies sv f) \/
  (exists h, hydrated sv id (Ok h) /\ mayd L (k (Some h))) \/ mayd L (k None).
Proof.
  intros HL. cbn. intros [(d & Hd & H)|(Hg & v & Hv & H)].
  - destruct d as [f|m|]; cbn in H; try contradiction. destruct H as ([x|] & Hx & H); cbn in Hx; [|eauto].
    destruct x as [h|m|]; cbn in H; try contradiction; apply mayd_save in H; try contradiction.
    right; left. exists h. split; auto. eapply hy_found; eauto.
  - assert (Hdry : dry = false) by (destruct dry; [discriminate|auto]).
    destruct (HL Hdry v Hv) as [(h & -> & Hh)|(-> & Hh)]; cbn in H; eauto.
Qed.
Lemma mayd_program q : In q qs -> mayd (legal qs) (program q) -> deadly sv q.
Proof.
  intros Hq H. destruct q as [id|id slug|id name cr|url| |]; cbn [deadly].
  - apply mayd_with in H.
    + destruct H as [H|[(h & Hh & H)|H]]; auto; apply mayd_bytes, mayd_and_save in H; contradiction.
    + intros E v Hv. apply (separate_holds (RCatalog id)); cbn; auto.
  - apply mayd_bytes, mayd_with in H.
    + destruct H as [H|[(h & Hh & H)|H]]; auto; [|contradiction].
      right. exists h. pose proof (names_document_iff slug h) as Hn. destruct (_ && _)%bool.
      * destruct (doc_bytes sv (folder_of sv h)); cbn in H; [apply mayd_save in H|]; contradiction.
      * apply mayd_and_save in H. repeat split; auto. intros Hc. apply Hn in Hc. discriminate.
    + intros E v Hv. apply (separate_holds (RRender id slug)); cbn; auto.
  - apply mayd_with in H.
    + destruct H as [H|[(h & Hh & H)|H]]; auto; apply mayd_bytes, mayd_and_save in H; contradiction.
    + intros E v Hv. apply (separate_holds (RFact id name cr)); cbn; auto.
  - cbn [CacheModel.program] in H. unfold hydrate_global_schema in H. destruct injected; [|exact H].
    cbn in H. destruct H as [([x|m|] & _ & H)|(_ & v & _ & H)]; cbn in H; try contradiction. destruct v; contradiction.
  - cbn [CacheModel.program] in H. unfold hydrate_entity_names in H. destruct injected; [|exact H].
    cbn in H. destruct H as [([x|m|] & _ & H)|(_ & v & _ & H)]; cbn in H; try contradiction. destruct v; contradiction.
  - cbn [CacheModel.program] in H. unfold hydrate_unit_type_registry in H. destruct injected; [|exact H].
    cbn in H. destruct H as [([x|m|] & _ & H)|(_ & v & _ & H)]; cbn in H; try contradiction. destruct v; contradiction.
Qed.

Lemma wok_bytes l key miss (L : string -> value -> Prop) :
  wok L miss -> wok L (Lookup l (negb dry) key as_bytes miss).
Proof. intros H. split; auto. intros _ v _. destruct v; cbn; auto. Qed.
Lemma safe_bytes live l key miss (L : string -> value -> Prop) :
  (dry = false -> forall v, L key v -> exists b, v = VBytes b) ->
  safe L live miss -> safe L live (Lookup l (negb dry) key as_bytes miss).
Proof.
  intros HL H. split; auto. intros Hg v Hv.
  destruct (HL ltac:(destruct dry; [discriminate|auto]) v Hv) as [b ->]. exact I.
Qed.

Lemma wok_program q : In q qs -> wok (legal qs) (program q).
Proof.
  intros Hq. destruct q as [id|id slug|id name cr|url| |].
  - apply wok_with.
    + intros _ v Hv. apply (holds_legal (RCatalog id) (ResFolder id)); cbn; auto.
    + intros E v Hv. apply (separate_holds (RCatalog id)); cbn; auto.
    + intros h Hh. apply wok_bytes, wok_and_save. intros _ v K.
      apply (holds_legal (RCatalog id) (ResCatalog id)); cbn; eauto.
    + apply wok_bytes, wok_and_save. intros _ v K. destruct K as [(b & _ & [=])|(_ & m & [=])].
  - apply wok_bytes, wok_with.
    + intros _ v Hv. apply (holds_legal (RRender id slug) (ResFolder id)); cbn; auto.
    + intros E v Hv. apply (separate_holds (RRender id slug)); cbn; auto.
    + intros h Hh. pose proof (names_document_iff slug h) as Hn. destruct (_ && _)%bool.
      * assert (Hn' : names_document sv slug h) by now apply Hn.
        destruct (doc_bytes sv (folder_of sv h)) as [d|] eqn:Ed; [|exact I].
        apply wok_save; [|exact I]. intros _.
        apply (holds_legal (RRender id slug) (ResRender id slug)); cbn; auto.
        exists h. split; auto. left. exists (Some d). split; auto. left. now rewrite Ed.
      * assert (Hn' : ~ names_document sv slug h) by (intros Hc; apply Hn in Hc; discriminate).
        apply wok_and_save. intros _ v K.
        apply (holds_legal (RRender id slug) (ResRender id slug)); cbn; auto.
        exists h. split; auto.
        destruct K as [(b & -> & K)|(-> & m & K)]; [left|right]; split || (exists b; split); auto; try (exists m); right; auto.
    + exact I.
  - apply wok_with.
    + intros _ v Hv. apply (holds_legal (RFact id name cr) (ResFolder id)); cbn; auto.
    + intros E v Hv. apply (separate_holds (RFact id name cr)); cbn; auto.
    + intros h Hh. apply wok_bytes, wok_and_save. intros _ v K.
      apply (holds_legal (RFact id name cr) (ResFact id name cr)); cbn; eauto.
    + apply wok_bytes, wok_and_save. intros _ v K. destruct K as [(b & _ & [=])|(_ & m & [=])].
  - cbn [CacheModel.program]. unfold hydrate_global_schema. destruct injected; [|exact I]. split.
    + intros a Ha. destruct a as [s|m|]; cbn; auto. split; auto.
      apply (holds_legal (RSchema url) (ResSchema url)); cbn; eauto.
    + intros _ v _. destruct v; cbn; auto.
  - cbn [CacheModel.program]. unfold hydrate_entity_names. destruct injected; [|exact I]. split.
    + intros a Ha. destruct a as [s|m|]; cbn; auto. split; auto.
      apply (holds_legal RNames ResNames); cbn; eauto.
    + intros _ v _. destruct v; cbn; auto.
  - cbn [CacheModel.program]. unfold hydrate_unit_type_registry. destruct injected; [|exact I]. split.
    + intros a Ha. destruct a as [s|m|]; cbn; auto. split; auto.
      apply (holds_legal RUtr ResUtr); cbn; eauto.
    + intros _ v _. destruct v; cbn; auto.
Qed.

Lemma kept_bytes P v : kept P v -> exists b, v = VBytes b.
Proof. intros [(b & -> & _)|(-> & _)]; eauto. Qed.

Lemma safe_program q : In q qs -> safe (legal qs) (returns_for sv q) (program q).
Proof.
  intros Hq. destruct q as [id|id slug|id name cr|url| |].
  - apply safe_with; [cbn; tauto| |].
    + intros E v Hv. apply (separate_holds (RCatalog id)); cbn; auto.
    + intros h Hh. apply safe_bytes; [|apply safe_and_save; intros (_ & _ & R); right; eapply on_hyd_returns; eauto]. intros E v Hv.
      destruct (separate_holds (RCatalog id) (ResCatalog id) v) as (h' & _ & K); cbn; eauto using kept_bytes.
  - apply safe_bytes.
    + intros E v Hv.
      destruct (separate_holds (RRender id slug) (ResRender id slug) v) as (h' & _ & K); cbn; eauto using kept_bytes.
    + apply safe_with; [cbn; tauto| |].
      * intros E v Hv. apply (separate_holds (RRender id slug)); cbn; auto.
      * intros [h|] Hh; [|exact I]. destruct (_ && _)%bool; [|apply safe_and_save; intros (_ & _ & R); now apply R].
        destruct (doc_bytes sv (folder_of sv h)); [|exact I]. now apply safe_save.
  - apply safe_with; [cbn; tauto| |].
    + intros E v Hv. apply (separate_holds (RFact id name cr)); cbn; auto.
    + intros h Hh. apply safe_bytes; [|apply safe_and_save; intros (_ & _ & R); right; eapply on_hyd_returns; eauto]. intros E v Hv.
      destruct (separate_holds (RFact id name cr) (ResFact id name cr) v) as (h' & _ & K); cbn; eauto using kept_bytes.
  - cbn [CacheModel.program]. unfold hydrate_global_schema. destruct injected; [|exact I]. split.
    + split; auto. intros [s|m|] _; cbn; auto.
    + intros _ v Hv. apply (separate_holds (RSchema url) (ResSchema url)) in Hv as (s & -> & Hs); cbn; auto.
  - cbn [CacheModel.program]. unfold hydrate_entity_names. destruct injected; [|exact I]. split.
    + split; auto. intros [s|m|] _; cbn; auto.
    + intros _ v Hv. apply (separate_holds RNames ResNames) in Hv as (s & -> & Hs); cbn; auto.
  - cbn [CacheModel.program]. unfold hydrate_unit_type_registry. destruct injected; [|exact I]. split.
    + split; auto. intros [s|m|] _; cbn; auto.
    + intros _ v Hv. apply (separate_holds RUtr ResUtr) in Hv as (s & -> & Hs); cbn; auto.
Qed.
End Separate.

(** ** Dry mode *)
Lemma may_dry L q r : dry = true -> of_folder q -> may L (program q) r -> uncached sv injected q r.
Proof.
  intros Hd Hq H.
  assert (HV : forall (X : Prop), dry = false -> X) by (intros X E; congruence).
  assert (HB : forall key v, dry = false -> L key v -> exists b, v = VBytes b /\ True) by (intros; congruence).
  destruct q as [id|id slug|id name cr|url| |]; try contradiction; cbn [uncached]; unfold served.
  - apply may_with in H; [|intros E; congruence].
    destruct H as [H|[H|[(h & Hh & H)|(Hh & E & H)]]]; eauto; [|congruence].
    apply (may_bytes _ _ _ _ _ _ (fun E v => HB _ v E)) in H. destruct H as [H|(E & _)]; [|congruence].
    apply may_and_save in H as (a & Ha & ->). right; right; eauto.
  - apply (may_bytes _ _ _ _ _ _ (fun E v => HB _ v E)) in H. destruct H as [H|(E & _)]; [|congruence].
    apply may_with in H; [|intros E; congruence].
    destruct H as [H|[H|[(h & Hh & H)|(Hh & E & H)]]]; eauto; [|congruence].
    right; right. exists h. pose proof (names_document_iff slug h) as Hn. unfold document_or_renderable.
    destruct (_ && _)%bool.
    + assert (Hn' : names_document sv slug h) by now apply Hn.
      destruct (doc_bytes sv (folder_of sv h)) as [d|].
      * apply may_save in H. cbn in H. exists (Ok (Some d)). eauto.
      * cbn in H. exists Panic. eauto.
    + assert (Hn' : ~ names_document sv slug h) by (intros Hc; apply Hn in Hc; discriminate).
      apply may_and_save in H as (a & Ha & ->). exists a. auto.
  - apply may_with in H; [|intros E; congruence].
    destruct H as [H|[H|[(h & Hh & H)|(Hh & E & H)]]]; eauto; [|congruence].
    apply (may_bytes _ _ _ _ _ _ (fun E v => HB _ v E)) in H. destruct H as [H|(E & _)]; [|congruence].
    apply may_and_save in H as (a & Ha & ->). right; right; eauto.
Qed.

(** A program that never writes *)
Fixpoint quiet (p : prog) : Prop :=
  match p with
  | Answer _ => True
  | Lookup _ _ _ hit miss => quiet miss /\ forall v, match hit v with Some p' => quiet p' | None => True end
  | Compute X P k => forall x, quiet (k x)
  | Spawn _ _ _ _ => False
  | Crash => True
  end.
Definition gquiet (g : goroutine) : Prop :=
  match g with
  | TRun p | TLeave _ p => quiet p
  | TWait l get key hit miss | TRead l get key hit miss => quiet (Lookup l get key hit miss)
  | _ => False
  end.
Lemma gstep_quiet (s s' : state) : gstep s s' -> Forall (fun t => gquiet (snd t)) (threads s) ->
  Forall (fun t => gquiet (snd t)) (threads s') /\ stored s' = stored s.
Proof.
  intros H Ht. destruct H; cbn [threads stored] in *; apply Forall_split in Ht as (Ha & Hx & Hb); cbn in Hx;
    try contradiction; try (split; [|reflexivity]; apply Forall_split; split; [auto|split; [|auto]]; cbn; auto).
  unfold after_get. destruct Hx as [H1 H2]. destruct (if get then _ else _) as [v|]; auto.
  specialize (H2 v). destruct (hit v); cbn; auto.
Qed.
Lemma quiet_save key v k : dry = true -> quiet k -> quiet (save dry key v k).
Proof. unfold save. now intros ->. Qed.
Lemma quiet_bytes l get key miss : quiet miss -> quiet (Lookup l get key as_bytes miss).
Proof. intros H. split; auto. intros v. destruct v; cbn; auto. Qed.
Lemma quiet_and_save key P D : dry = true -> quiet (and_save dry key P D).
Proof. intros Hd. cbn. intros [[b|m|]|]; cbn; auto; now apply quiet_save. Qed.
Lemma quiet_with id k : dry = true -> (forall h, quiet (k h)) -> quiet (with_hydratable sv dry id k).
Proof.
  intros Hd Hk. split.
  - intros [f|m|]; cbn; auto. intros [[h|m|]|]; cbn; auto; apply quiet_save; cbn; auto.
  - intros v. destruct v; cbn; auto.
Qed.
Lemma quiet_program q : dry = true -> (of_folder q \/ injected = false) -> quiet (program q).
Proof.
  intros Hd Hq. destruct q as [id|id slug|id name cr|url| |].
  - apply quiet_with; auto. intros h. now apply quiet_bytes, quiet_and_save.
  - apply quiet_bytes, quiet_with; auto. intros [h|]; [|exact I].
    destruct (_ && _)%bool; [|now apply quiet_and_save].
    destruct (doc_bytes sv (folder_of sv h)); [|exact I]. now apply quiet_save.
  - apply quiet_with; auto. intros h. now apply quiet_bytes, quiet_and_save.
  - destruct Hq as [[]| ->]. exact I.
  - destruct Hq as [[]| ->]. exact I.
  - destruct Hq as [[]| ->]. exact I.
Qed.

Lemma run_quiet s s' : (forall q, In q (requests s') -> quiet (program q)) -> run s s' ->
  Forall (fun t => gquiet (snd t)) (threads s) ->
  Forall (fun t => gquiet (snd t)) (threads s') /\ stored s' = stored s.
Proof.
  intros Hq Hr. induction Hr as [s|s s1 s2 Hr IH Hs]; auto. intros Hi.
  assert (H1 : Forall (fun t => gquiet (snd t)) (threads s1) /\ stored s1 = stored s).
  { apply IH; auto. intros q Hin. apply Hq. now apply (step_requests _ _ Hs). }
  destruct H1 as [Ht Hc]. destruct Hs as [s' s'' _ Hs|c m ts q _].
  - destruct (gstep_quiet _ _ Hs Ht). split; auto. congruence.
  - split; auto. cbn. apply Forall_app. split; auto. constructor; auto. cbn. apply Hq.
    unfold requests. cbn. rewrite flat_map_app. apply in_or_app. right. now left.
Qed.

(** ** Locks *)
Lemma lockid_eqb_spec a b : Bool.reflect (a = b) (lockid_eqb a b).
Proof. destruct a, b; constructor; congruence. Qed.
Lemma lockid_eqb_refl a : lockid_eqb a a = true.
Proof. now destruct a. Qed.
Lemma set_lock_eq m l w : set_lock m l w l = w.
Proof. unfold set_lock. now rewrite lockid_eqb_refl. Qed.
Lemma set_lock_neq m l w l' : l' <> l -> set_lock m l w l' = m l'.
Proof. unfold set_lock. now destruct (lockid_eqb_spec l' l). Qed.

Notation thread := (option request * goroutine)%type.
Definition b2n (b : bool) : nat := if b then 1 else 0.
Definition count (f : goroutine -> bool) (ts : list thread) : nat :=
  List.length (filter (fun t => f (snd t)) ts).
Lemma count_app f a b : count f (a ++ b) = count f a + count f b.
Proof. unfold count. now rewrite filter_app, app_length. Qed.
Lemma count_cons f t b : count f (t :: b) = b2n (f (snd t)) + count f b.
Proof. unfold count. cbn. now destruct (f (snd t)). Qed.
Lemma count_mid f a t b : count f (a ++ t :: b) = b2n (f (snd t)) + count f (a ++ b).
Proof. rewrite !count_app, count_cons. lia. Qed.

Definition reading (l : lockid) (g : goroutine) : bool :=
  match g with TRead l' _ _ _ _ | TLeave l' _ => lockid_eqb l' l | _ => false end.
Definition writing (l : lockid) (g : goroutine) : bool :=
  match g with WWait l' _ _ | WIn l' _ _ | WOut l' => lockid_eqb l' l | _ => false end.
Definition inside (l : lockid) (g : goroutine) : bool :=
  match g with WIn l' _ _ | WOut l' => lockid_eqb l' l | _ => false end.

Notation woken l a := (map (fun t => (fst t, wake l (snd t))) a).
Lemma count_reading_woken l l' (a : list thread) :
  count (reading l') (woken l a) = count (reading l') a + (if lockid_eqb l' l then count (waits l) a else 0).
Proof.
  induction a as [|[q g] a IH]; cbn [map].
  - unfold count; cbn. now destruct (lockid_eqb l' l).
  - rewrite !count_cons, IH. cbn [fst snd]. destruct (lockid_eqb_spec l' l) as [->|E].
    + destruct g; cbn; try lia. destruct (lockid_eqb_spec l0 l); cbn; try lia.
      subst. rewrite lockid_eqb_refl. cbn. lia.
    + destruct g; cbn; try lia. destruct (lockid_eqb_spec l0 l); cbn; try lia.
      subst. destruct (lockid_eqb_spec l l'); [congruence|]. cbn. lia.
Qed.
Lemma count_waits_woken l l' (a : list thread) :
  count (waits l') (woken l a) = if lockid_eqb l' l then 0 else count (waits l') a.
Proof.
  induction a as [|[q g] a IH]; cbn [map].
  - unfold count; cbn. now destruct (lockid_eqb l' l).
  - rewrite !count_cons, IH. cbn [fst snd]. destruct (lockid_eqb_spec l' l) as [->|E].
    + destruct g; cbn; try lia. destruct (lockid_eqb_spec l0 l); cbn; try lia.
      destruct (lockid_eqb_spec l0 l); cbn; [congruence|lia].
    + destruct g; cbn; try lia. destruct (lockid_eqb_spec l0 l); cbn; try lia.
      subst. destruct (lockid_eqb_spec l l'); [congruence|]. cbn. lia.
Qed.
Lemma count_writing_woken l l' (a : list thread) :
  count (writing l') (woken l a) = count (writing l') a.
Proof.
  induction a as [|[q g] a IH]; cbn [map]; auto. rewrite !count_cons, IH. cbn [fst snd].
  destruct g; cbn; try lia. destruct (lockid_eqb l0 l); cbn; lia.
Qed.
Lemma count_inside_woken l l' (a : list thread) :
  count (inside l') (woken l a) = count (inside l') a.
Proof.
  induction a as [|[q g] a IH]; cbn [map]; auto. rewrite !count_cons, IH. cbn [fst snd].
  destruct g; cbn; try lia. destruct (lockid_eqb l0 l); cbn; lia.
Qed.
Lemma blocked_count l ts : blocked l ts = count (waits l) ts.
Proof. reflexivity. Qed.
Lemma count_In f (ts : list thread) : count f ts > 0 -> exists a t b, ts = (a ++ t :: b)%list /\ f (snd t) = true.
Proof.
  intros H. unfold count in H. destruct (filter (fun t => f (snd t)) ts) as [|t l] eqn:E; [cbn in H; lia|].
  assert (Hin : In t (filter (fun t => f (snd t)) ts)) by (rewrite E; now left).
  apply filter_In in Hin as [Hin Hf]. apply in_split in Hin as (a & b & ->). eauto.
Qed.

(** The lock discipline when no type assertion fails.  [announced] is set
    exactly while one writer is between its announcement and its Unlock. *)
Definition kind (t : thread) : Prop :=
  match snd t with
  | TRun _ | TWait _ _ _ _ _ | TRead _ _ _ _ _ | TLeave _ _ => fst t <> None
  | _ => fst t = None
  end.
Definition lives (t : thread) : Prop := match fst t with Some q => returns_for sv q | None => True end.
Definition linv (L : string -> value -> Prop) (s : state) : Prop :=
  Forall (fun t => gsafe L (lives t) (snd t) /\ kind t) (threads s) /\
  forall l,
    readers (locks s l) = count (reading l) (threads s) /\
    count (writing l) (threads s) = b2n (announced (locks s l)) /\
    (announced (locks s l) = false -> count (waits l) (threads s) = 0) /\
    (count (inside l) (threads s) > 0 -> readers (locks s l) = 0).

Lemma after_get_safe (L : string -> value -> Prop) live c l get key hit miss :
  (forall k v, In (k, v) c -> L k v) -> safe L live (Lookup l get key hit miss) ->
  exists p, after_get c l get key hit miss = TLeave l p /\ safe L live p.
Proof.
  intros Hc [H1 H2]. unfold after_get.
  destruct (if get then mget String.eqb key c else None) as [v|] eqn:E; [|eauto].
  destruct get; [|discriminate]. apply mget_In in E. apply Hc in E. specialize (H2 eq_refl v E).
  destruct (hit v); [eauto|contradiction].
Qed.

Lemma inside_writing l (ts : list thread) : count (inside l) ts <= count (writing l) ts.
Proof.
  induction ts as [|[q g] ts IH]; [unfold count; cbn; lia|]. rewrite !count_cons. cbn [snd].
  destruct g; cbn; try lia; destruct (lockid_eqb l0 l); cbn; lia.
Qed.

Ltac lockcases l l0 :=
  let E := fresh "E" in
  destruct (lockid_eqb_spec l l0) as [E|?Hne];
  [rewrite <- E in *; rewrite ?set_lock_eq, ?lockid_eqb_refl|rewrite ?set_lock_neq by congruence].

Lemma gstep_linv L s s' : gstep s s' -> inv L s -> linv L s -> linv L s'.
Proof.
  intros H [Hc _] [Hf Hl].
  assert (HG : forall a (t t' : thread) b, Forall (fun t => gsafe L (lives t) (snd t) /\ kind t) (a ++ t :: b) ->
            (gsafe L (lives t) (snd t) /\ kind t -> gsafe L (lives t') (snd t') /\ kind t') ->
            Forall (fun t => gsafe L (lives t) (snd t) /\ kind t) (a ++ t' :: b)).
  { intros a t t' b. rewrite !Forall_split. tauto. }
  destruct H; unfold linv; cbn [stored threads locks] in *.
  - split.
    + eapply HG; eauto. unfold kind; cbn. intros [[_ Hs] Hk]. auto.
    + intros l. specialize (Hl l). rewrite !count_mid in *. exact Hl.
  - split.
    + rewrite app_comm_cons, app_assoc. apply Forall_app. split.
      * eapply HG; eauto.
      * constructor; auto. now split.
    + intros l0. specialize (Hl l0). rewrite app_comm_cons, app_assoc.
      rewrite !(count_app _ _ [_]), !count_mid in *. cbn in *. rewrite !Nat.add_0_r. exact Hl.
  - split.
    + eapply HG; eauto.
    + intros l0. specialize (Hl l0). rewrite !count_mid in *. cbn [snd reading writing waits inside b2n locks] in *.
      lockcases l l0; cbn [readers announced] in *.
      * rewrite H in *. cbn in *. destruct Hl as (H1 & H2 & H3 & H4). repeat split; try lia; auto.
        intros Hi. pose proof (inside_writing l (a ++ b)). lia.
      * cbn in *. exact Hl.
  - split.
    + eapply HG; eauto.
    + intros l0. specialize (Hl l0). rewrite !count_mid in *. cbn [snd reading writing waits inside b2n locks] in *.
      lockcases l l0; cbn [readers announced] in *.
      * rewrite H in *. destruct Hl as (H1 & H2 & H3 & H4). repeat split; auto. discriminate.
      * cbn in *. exact Hl.
  - pose proof Hf as Hf'. apply Forall_split in Hf' as (_ & [Hs _] & _). cbn in Hs.
    destruct (after_get_safe L _ c l get key hit miss Hc Hs) as (p & -> & Hp).
    split.
    + eapply HG; eauto. unfold kind; cbn. tauto.
    + intros l0. specialize (Hl l0). rewrite !count_mid in *. exact Hl.
  - split.
    + eapply HG; eauto.
    + intros l0. specialize (Hl l0). rewrite !count_mid in *. cbn [snd reading writing waits inside b2n locks] in *.
      lockcases l l0; cbn [readers announced] in *.
      * cbn in Hl |- *. destruct Hl as (H1 & H2 & H3 & H4). repeat split; auto; try lia.
      * cbn in *. exact Hl.
  - split.
    + eapply HG; eauto.
    + intros l0. specialize (Hl l0). rewrite !count_mid in *. cbn [snd reading writing waits inside b2n locks] in *.
      lockcases l l0; cbn [readers announced] in *.
      * rewrite H in *. cbn in Hl |- *. destruct Hl as (H1 & H2 & H3 & H4).
        repeat split; auto; try lia.
      * cbn in *. exact Hl.
  - split.
    + eapply HG; eauto.
    + intros l0. specialize (Hl l0). rewrite !count_mid in *. cbn [snd reading writing waits inside b2n locks] in *.
      destruct (lockid_eqb_spec l l0) as [E|]; [rewrite <- E in *|]; cbn in *; [|exact Hl].
      destruct Hl as (H1 & H2 & H3 & H4). repeat split; auto; try lia.
  - split.
    + eapply HG; eauto; unfold kind; cbn; tauto.
    + intros l0. specialize (Hl l0). rewrite !count_mid in *. exact Hl.
  - split.
    + apply Forall_split in Hf as (Ha & [_ Hx] & Hb). apply Forall_split.
      assert (HW : forall a : list thread, Forall (fun t => gsafe L (lives t) (snd t) /\ kind t) a ->
                 Forall (fun t => gsafe L (lives t) (snd t) /\ kind t) (woken l a)).
      { intros a0. rewrite Forall_map. apply Forall_impl. intros [q0 g0]. unfold kind. cbn.
        destruct g0; cbn; auto. destruct (lockid_eqb l0 l); cbn; auto. }
      repeat split; auto.
    + intros l0. specialize (Hl l0). rewrite !count_mid in *. rewrite <- map_app.
      rewrite count_reading_woken, count_waits_woken, count_writing_woken, count_inside_woken.
      cbn [snd reading writing waits inside b2n locks] in *.
      lockcases l l0; cbn [readers announced] in *.
      * rewrite blocked_count. cbn in Hl |- *. destruct Hl as (H1 & H2 & H3 & H4).
        assert (Ew : count (writing l) (a ++ b) = 0) by (destruct (announced (m l)); cbn in H2; lia).
        pose proof (inside_writing l (a ++ b)). repeat split; auto; try lia.
      * destruct (lockid_eqb_spec l0 l); [congruence|].
        cbn in *. rewrite !Nat.add_0_r. exact Hl.
Qed.

Lemma run_linv L s s' : (forall q, In q (requests s') -> wok L (program q) /\ safe L (returns_for sv q) (program q)) ->
  run s s' -> inv L s -> linv L s -> linv L s'.
Proof.
  intros Hq Hr. induction Hr as [s|s s1 s2 Hr IH Hs]; auto. intros Hi Hl.
  assert (Hq1 : forall q, In q (requests s1) -> wok L (program q) /\ safe L (returns_for sv q) (program q)).
  { intros q Hin. apply Hq. now apply (step_requests _ _ Hs). }
  specialize (IH Hq1 Hi Hl).
  assert (Hi1 : inv L s1). { eapply run_inv; eauto. intros q Hin. now apply Hq1. }
  destruct Hs as [s' s'' _ Hs|c m ts q _]; [eapply gstep_linv; eauto|].
  destruct IH as [Hf Hk]. split.
  - cbn. apply Forall_app. split; auto. constructor; auto. split; [|discriminate]. apply Hq.
    unfold requests. cbn. rewrite flat_map_app. apply in_or_app. right. now left.
  - intros l. specialize (Hk l). cbn [threads locks] in *. rewrite !count_app. cbn. rewrite !Nat.add_0_r. exact Hk.
Qed.

Definition finished (g : goroutine) : Prop := (exists r, g = TRun (Answer r)) \/ g = WEnd \/ g = TRun Crash.

Lemma finished_dec g : finished g \/ ~ finished g.
Proof.
  destruct g as [p| | | | | | | |].
  2-8: right; intros [[r Hr]|[Hr|Hr]]; discriminate.
  - destruct p; [left; left; eauto| | | |left; right; now right]; right; intros [[r' Hr]|[Hr|Hr]]; discriminate.
  - left. right. now left.
Qed.

Lemma up_dec (s : state) : up s \/ ended s.
Proof.
  unfold up, ended. induction (threads s) as [|[q g] ts IH]; [left; constructor|].
  assert (Hd : g = TRun Crash \/ g <> TRun Crash) by (destruct g as [[]| | | | | | | |]; (now left) || (right; discriminate)).
  destruct Hd as [->|Hg]; [right; exists q; now left|].
  destruct IH as [H|[q' H]]; [left; constructor; auto|right; exists q'; now right].
Qed.
Lemma up_not_ended (s : state) : up s -> ~ ended s.
Proof. intros Hu [q Hin]. unfold up in Hu. rewrite Forall_forall in Hu. now apply (Hu _ Hin). Qed.

Definition computing (g : goroutine) : Prop := exists X P k, g = TRun (Compute X P k).
(** Unless all are waiting for a call that hangs, somebody can go on. *)
Lemma progress L (s : state) : inv L s -> linv L s ->
  (exists t, In t (threads s) /\ ~ finished (snd t) /\ (lives t \/ ~ computing (snd t))) -> exists s', gstep s s'.
Proof.
  destruct s as [c m ts]. cbn [threads]. intros [Hc _] [Hf Hl] ([q g] & Hin & Hg & Hv). cbn [snd] in Hg, Hv.
  cbn [stored threads locks] in *.
  (* whoever reads can go on *)
  assert (HR : forall l, count (reading l) ts > 0 -> exists s', gstep (State c m ts) s').
  { intros l H. apply count_In in H as (a & [q0 g0] & b & -> & H). cbn in H.
    destruct g0; try discriminate.
    - eexists. apply gs_get.
    - eexists. apply gs_runlock. }
  (* if a writer has announced itself, somebody can go on *)
  assert (HW : forall l, announced (m l) = true -> exists s', gstep (State c m ts) s').
  { intros l H. destruct (Hl l) as (H1 & H2 & _). rewrite H in H2. cbn in H2.
    assert (H3 : count (writing l) ts > 0) by lia.
    destruct (readers (m l)) eqn:Er.
    - apply count_In in H3 as (a & [q0 g0] & b & -> & H3). cbn in H3.
      destruct g0; try discriminate; cbn in H3; destruct (lockid_eqb_spec l0 l) as [->|]; try discriminate.
      + eexists. now apply gs_enter.
      + eexists. apply gs_set.
      + eexists. apply gs_unlock.
    - apply (HR l). lia. }
  pose proof Hin as Hin'. apply in_split in Hin as (a & b & ->).
  destruct g as [p|l get key hit miss|l get key hit miss|l p|l key v|l key v|l key v|l|].
  - destruct p as [r|l get key hit miss|X P k|l key v k|]; [| | | |exfalso; apply Hg; right; now right].
    + exfalso. apply Hg. left. eauto.
    + destruct (announced (m l)) eqn:E; eexists; [now apply gs_block|now apply gs_rlock].
    + apply Forall_split in Hf as (_ & [Hx _] & _). destruct Hx as [Hx _].
      destruct Hv as [Hv|Hv]; [|exfalso; apply Hv; do 3 eexists; reflexivity]. destruct (Hx Hv) as [x Hx']. eexists. eapply gs_compute; eauto.
    + eexists. apply gs_spawn.
  - destruct (announced (m l)) eqn:E; [now apply (HW l)|].
    destruct (Hl l) as (_ & _ & H & _). specialize (H E). rewrite count_mid in H. cbn in H.
    rewrite lockid_eqb_refl in H. cbn in H. lia.
  - eexists. apply gs_get.
  - eexists. apply gs_runlock.
  - destruct (announced (m l)) eqn:E; [now apply (HW l)|]. eexists. now apply gs_lock.
  - destruct (readers (m l)) eqn:E; [eexists; now apply gs_enter|]. apply (HR l).
    destruct (Hl l) as (H & _). lia.
  - eexists. apply gs_set.
  - eexists. apply gs_unlock.
  - exfalso. apply Hg. right. now left.
Qed.

(** ** Termination: a bound on the steps left *)
Fixpoint sized (p : prog) (n : nat) : Prop :=
  match p with
  | Answer _ => True
  | Lookup _ _ _ hit miss =>
      4 <= n /\ sized miss (n - 4) /\ forall v, match hit v with Some p' => sized p' (n - 4) | None => True end
  | Compute X P k => 1 <= n /\ forall x, sized (k x) (n - 1)
  | Spawn _ _ _ k => 6 <= n /\ sized k (n - 6)
  | Crash => True
  end.
Definition gsized (g : goroutine) (n : nat) : Prop :=
  match g with
  | TRun p => sized p n
  | TWait l get key hit miss => sized (Lookup l get key hit miss) (S n)
  | TRead l get key hit miss => sized (Lookup l get key hit miss) (S (S n))
  | TLeave _ p => 1 <= n /\ sized p (n - 1)
  | WStart _ _ _ => 4 <= n
  | WWait _ _ _ => 3 <= n
  | WIn _ _ _ => 2 <= n
  | WOut _ => 1 <= n
  | WEnd => True
  end.
Definition csized (ts : list thread) (N : nat) : Prop :=
  exists ns, Forall2 (fun t n => gsized (snd t) n) ts ns /\ list_sum ns = N.

Lemma csized_app a b N : csized (a ++ b) N <-> exists n m, csized a n /\ csized b m /\ N = n + m.
Proof.
  split.
  - intros (ns & H & <-). apply Forall2_app_inv_l in H as (n1 & n2 & H1 & H2 & ->).
    exists (list_sum n1), (list_sum n2). rewrite list_sum_app. repeat split; eexists; eauto.
  - intros (n & m & (n1 & H1 & <-) & (n2 & H2 & <-) & ->). exists (n1 ++ n2)%list.
    split; [now apply Forall2_app|]. apply list_sum_app.
Qed.
Lemma csized_cons t b N : csized (t :: b) N <-> exists n m, gsized (snd t) n /\ csized b m /\ N = n + m.
Proof.
  split.
  - intros (ns & H & <-). inversion H; subst. cbn. eexists _, _. repeat split; eauto. eexists. eauto.
  - intros (n & m & H1 & (n2 & H2 & <-) & ->). exists (n :: n2). split; auto.
Qed.
Lemma csized_wake l a N : csized a N -> exists N', csized (woken l a) N' /\ N' <= N.
Proof.
  revert N. induction a as [|[q g] a IH]; intros N H.
  - exists N. auto.
  - apply csized_cons in H as (n & m & H1 & H2 & ->). destruct (IH m H2) as (m' & H3 & H4).
    cbn [map fst snd] in *.
    assert (exists n', gsized (wake l g) n' /\ n' <= n) as (n' & H5 & H6).
    { destruct g; cbn [wake]; eauto. destruct (lockid_eqb l0 l); [|eauto].
      destruct n as [|n]; [cbn in H1; lia|]. exists n. split; auto. }
    exists (n' + m'). split; [|lia]. apply csized_cons. eauto.
Qed.

Lemma gstep_sized (s s' : state) N : gstep s s' -> csized (threads s) N ->
  exists N', csized (threads s') N' /\ N' < N.
Proof.
  intros H. destruct H; cbn [threads]; rewrite csized_app; intros (n1 & n2 & Ha & Hb & ->);
    apply csized_cons in Hb as (n & n3 & Hx & Hb & ->); cbn [snd] in Hx.
  all: try (assert (HM : exists n', gsized (snd (q, TRun (k x))) n' /\ n' < n);
            [|destruct HM as (n' & H1 & H2); exists (n1 + (n' + n3)); split; [|lia];
              apply csized_app; exists n1, (n' + n3); repeat split; auto; apply csized_cons; eauto]).
  - destruct Hx as [H1 H2]. exists (n - 1). split; [apply H2|lia].
  - destruct Hx as [H1 H2]. exists (n1 + ((n - 6) + (n3 + 4))). split; [|lia].
    apply csized_app. exists n1, (n - 6 + (n3 + 4)). repeat split; auto. apply csized_cons.
    exists (n - 6), (n3 + 4). repeat split; auto. apply csized_app. exists n3, 4. repeat split; auto.
    apply csized_cons. exists 4, 0. cbn. repeat split; auto. exists []. split; auto.
  - destruct n as [|[|n]]; [cbn in Hx; lia|cbn in Hx; lia|]. exists (n1 + (n + n3)). split; [|lia].
    apply csized_app. exists n1, (n + n3). repeat split; auto. apply csized_cons. exists n, n3. repeat split; auto; apply Hx.
  - destruct n as [|n]; [cbn in Hx; lia|]. exists (n1 + (n + n3)). split; [|lia].
    apply csized_app. exists n1, (n + n3). repeat split; auto. apply csized_cons. exists n, n3. repeat split; auto; apply Hx.
  - destruct Hx as (H1 & H2 & H3). exists (n1 + ((n - 1) + n3)). split; [|lia].
    apply csized_app. exists n1, (n - 1 + n3). repeat split; auto. apply csized_cons. exists (n - 1), n3. repeat split; auto.
    cbn [snd]. replace (S (S n) - 4) with (n - 1 - 1) in * by lia.
    unfold after_get. destruct (if get then _ else _) as [v|]; [|split; [lia|auto]].
    specialize (H3 v). destruct (hit v); [split; [lia|auto]|exact I].
  - destruct Hx as [H1 H2]. exists (n1 + ((n - 1) + n3)). split; [|lia].
    apply csized_app. exists n1, (n - 1 + n3). repeat split; auto. apply csized_cons. exists (n - 1), n3. auto.
  - cbn in Hx. exists (n1 + ((n - 1) + n3)). split; [|lia].
    apply csized_app. exists n1, (n - 1 + n3). repeat split; auto. apply csized_cons. exists (n - 1), n3. cbn. repeat split; auto; lia.
  - cbn in Hx. exists (n1 + ((n - 1) + n3)). split; [|lia].
    apply csized_app. exists n1, (n - 1 + n3). repeat split; auto. apply csized_cons. exists (n - 1), n3. cbn. repeat split; auto; lia.
  - cbn in Hx. exists (n1 + ((n - 1) + n3)). split; [|lia].
    apply csized_app. exists n1, (n - 1 + n3). repeat split; auto. apply csized_cons. exists (n - 1), n3. cbn. repeat split; auto; lia.
  - cbn in Hx. destruct (csized_wake l a n1 Ha) as (n1' & Ha' & L1). destruct (csized_wake l b n3 Hb) as (n3' & Hb' & L3).
    exists (n1' + (0 + n3')). split; [|lia].
    apply csized_app. exists n1', (0 + n3'). repeat split; auto. apply csized_cons. exists 0, n3'. cbn. repeat split; auto.
Qed.

Lemma gstep_Acc (s : state) N : csized (threads s) N -> Acc (fun s2 s1 => gstep s1 s2) s.
Proof.
  revert s. induction N as [N IH] using lt_wf_ind. intros s Hs. constructor. intros s' H.
  destruct (gstep_sized _ _ _ H Hs) as (N' & H1 & H2). eauto.
Qed.

Lemma sized_save key v k n : 6 <= n -> sized k (n - 6) -> sized k n -> sized (save dry key v k) n.
Proof. unfold save. destruct dry; cbn; auto. Qed.
Lemma sized_and_save key P D n : 7 <= n -> sized (and_save dry key P D) n.
Proof.
  intros Hn. cbn. split; [lia|]. intros [[b|m|]|]; cbn; auto; apply sized_save; cbn; auto; lia.
Qed.
Lemma sized_bytes l get key miss n : 4 <= n -> sized miss (n - 4) -> sized (Lookup l get key as_bytes miss) n.
Proof. intros H1 H2. split; auto. split; auto. intros v. destruct v; cbn; auto. Qed.
Lemma sized_with id k n : 12 <= n -> (forall h m, n - 12 <= m -> sized (k h) m) -> sized (with_hydratable sv dry id k) n.
Proof.
  intros Hn Hk. split; [lia|]. split.
  - split; [lia|]. intros [f|m|]; cbn; auto. split; [lia|]. intros [[h|m|]|]; cbn; auto;
      apply sized_save; cbn; auto; try lia; apply Hk; lia.
  - intros v. destruct v; cbn; auto. apply Hk. lia.
Qed.
Lemma sized_program q : sized (program q) 30.
Proof.
  destruct q as [id|id slug|id name cr|url| |].
  - apply sized_with; [lia|]. intros h m Hm. apply sized_bytes; [lia|]. apply sized_and_save. lia.
  - apply sized_bytes; [lia|]. apply sized_with; [lia|]. intros [h|] m Hm; [|exact I].
    destruct (_ && _)%bool; [|apply sized_and_save; lia].
    destruct (doc_bytes sv (folder_of sv h)); [|exact I]. apply sized_save; cbn; auto; lia.
  - apply sized_with; [lia|]. intros h m Hm. apply sized_bytes; [lia|]. apply sized_and_save. lia.
  - cbn [CacheModel.program]. unfold hydrate_global_schema. destruct injected; [|exact I]. cbn. split; [lia|]. split.
    + split; [lia|]. intros [s|m|]; cbn; auto. split; auto. lia.
    + intros v. destruct v; cbn; auto.
  - cbn [CacheModel.program]. unfold hydrate_entity_names. destruct injected; [|exact I]. cbn. split; [lia|]. split.
    + split; [lia|]. intros [s|m|]; cbn; auto. split; auto. lia.
    + intros v. destruct v; cbn; auto.
  - cbn [CacheModel.program]. unfold hydrate_unit_type_registry. destruct injected; [|exact I]. cbn. split; [lia|]. split.
    + split; [lia|]. intros [s|m|]; cbn; auto. split; auto. lia.
    + intros v. destruct v; cbn; auto.
Qed.

Lemma run_sized s s' : run s s' -> (exists N, csized (threads s) N) -> exists N, csized (threads s') N.
Proof.
  induction 1 as [s|s s1 s2 Hr IH Hs]; auto. intros H0. destruct (IH H0) as (N & HN).
  destruct Hs as [s' s'' _ Hs|c m ts q _].
  - destruct (gstep_sized _ _ _ Hs HN) as (N' & H1 & _). eauto.
  - exists (N + (30 + 0)). cbn. apply csized_app. exists N, (30 + 0). repeat split; auto. apply csized_cons.
    exists 30, 0. cbn [snd gsized]. repeat split; auto; [apply sized_program|]. exists []. split; auto.
Qed.

(** ** The wedge *)
Definition wedged (l : lockid) (s : state) : Prop :=
  announced (locks s l) = true /\
  count (inside l) (threads s) = 0 /\
  count (reading l) (threads s) < readers (locks s l).

Lemma after_get_counts c l get key hit miss l0 :
  b2n (reading l0 (after_get c l get key hit miss)) <= b2n (lockid_eqb l l0) /\
  inside l0 (after_get c l get key hit miss) = false.
Proof.
  unfold after_get. destruct (if get then _ else _) as [v|]; [destruct (hit v)|]; cbn; split; auto; destruct (lockid_eqb l l0); cbn; auto.
Qed.

Lemma gstep_wedged l (s s' : state) : gstep s s' -> wedged l s -> wedged l s'.
Proof.
  intros H (H1 & H2 & H3). unfold wedged.
  destruct H; cbn [threads locks] in *; rewrite ?count_mid in *; cbn [snd inside reading] in *.
  - cbn in *. auto.
  - rewrite !app_assoc, !(count_app _ _ [_]). cbn in *. rewrite !Nat.add_0_r. auto.
  - lockcases l0 l; cbn in *; auto. congruence.
  - cbn in *. auto.
  - destruct (after_get_counts c l0 get key hit miss l) as [E1 E2]. rewrite E2. cbn in *. repeat split; auto. lia.
  - lockcases l0 l; cbn in *; auto. repeat split; auto. lia.
  - lockcases l0 l; cbn in *; auto.
  - destruct (lockid_eqb_spec l0 l) as [E|]; [rewrite <- E in *; cbn in *; lia|]. cbn in *. auto.
  - destruct (lockid_eqb_spec l0 l); cbn in *; auto.
  - destruct (lockid_eqb_spec l0 l) as [E|Hne]; [cbn in H2; lia|].
    rewrite set_lock_neq by congruence. rewrite <- map_app, count_inside_woken, count_reading_woken.
    destruct (lockid_eqb_spec l l0); [congruence|]. cbn in *. rewrite Nat.add_0_r. auto.
Qed.

(** A request that has not got the lock yet *)
Definition outside (l : lockid) (g : goroutine) : Prop :=
  match g with
  | TRun (Lookup l' _ _ _ _) | TWait l' _ _ _ _ => l' = l
  | _ => False
  end.
Definition late (l : lockid) (n : nat) (s : state) : Prop :=
  forall i q g, n <= i -> nth_error (threads s) i = Some (Some q, g) -> of_folder q -> outside l g.

Lemma nth_split_step {A} (a : list A) x x' b i y :
  nth_error (a ++ x' :: b) i = Some y -> (i = List.length a /\ y = x') \/ nth_error (a ++ x :: b) i = Some y.
Proof.
  intros H. destruct (lt_eq_lt_dec i (List.length a)) as [[Hlt|Heq]|Hgt].
  - right. rewrite nth_error_app1 in * by auto. auto.
  - left. split; auto. rewrite nth_error_app2 in H by lia. subst i. rewrite Nat.sub_diag in H. now injection H.
  - right. rewrite nth_error_app2 in * by lia. destruct (i - List.length a) as [|j] eqn:E; [lia|]. exact H.
Qed.
Lemma nth_mid {A} (a : list A) x b : nth_error (a ++ x :: b) (List.length a) = Some x.
Proof. rewrite nth_error_app2, Nat.sub_diag by lia. reflexivity. Qed.

Ltac step_at t :=
  match goal with
  | Hin : nth_error _ ?i = Some (Some ?q0, _), Hl : late _ _ _, Hn : _ <= ?i, Hq : of_folder ?q0 |- _ =>
      apply (nth_split_step _ t) in Hin;
      destruct Hin as [[-> [= <- ->]]|Hin]; [|now apply (Hl i q0)];
      pose proof (Hl _ q0 _ Hn (nth_mid _ _ _) Hq) as Ho; cbn in Ho; try contradiction
  end.
Lemma gstep_late l n (s s' : state) : gstep s s' -> wedged l s -> late l n s -> late l n s'.
Proof.
  intros H (Hw & Hi & _) Hl i q0 g0 Hn Hin Hq.
  destruct H; cbn [threads locks] in *.
  - step_at (q, TRun (Compute X P k)).
  - rewrite app_comm_cons, app_assoc in Hin.
    assert (Hlen : i < List.length (a ++ (q, TRun k) :: b) \/ List.length (a ++ (q, TRun k) :: b) <= i) by lia.
    destruct Hlen as [Hlen|Hlen].
    + rewrite nth_error_app1 in Hin by auto.
      apply (nth_split_step _ (q, TRun (Spawn l0 key v k))) in Hin.
      destruct Hin as [[-> [= <- ->]]|Hin]; [|now apply (Hl i q0)].
      pose proof (Hl _ q0 _ Hn (nth_mid _ _ _) Hq) as Ho. contradiction.
    + rewrite nth_error_app2 in Hin by auto. destruct (i - _) as [|[|j]]; discriminate.
  - step_at (q, TRun (Lookup l0 get key hit miss)). subst l0. congruence.
  - step_at (q, TRun (Lookup l0 get key hit miss)). exact Ho.
  - step_at (q, TRead l0 get key hit miss).
  - step_at (q, TLeave l0 p).
  - step_at (q, WStart l0 key v).
  - step_at (q, WWait l0 key v).
  - step_at (q, WIn l0 key v).
  - change ((q, WEnd) :: woken l0 b)%list with (woken l0 [(q, WEnd)] ++ woken l0 b)%list in Hin.
    rewrite <- !map_app in Hin. cbn [app] in Hin.
    rewrite nth_error_map in Hin. destruct (nth_error (a ++ (q, WEnd) :: b) i) as [[q1 g1]|] eqn:E; [|discriminate].
    cbn in Hin. injection Hin as -> <-.
    apply (nth_split_step _ (q, WOut l0)) in E. destruct E as [[-> [= <- ->]]|E].
    + pose proof (Hl _ q0 _ Hn (nth_mid _ _ _) Hq) as Ho. contradiction.
    + pose proof (Hl i q0 g1 Hn E Hq) as Ho. destruct g1 as [p|l1 get key hit miss| | | | | | |]; cbn in *; try contradiction; auto.
      destruct (lockid_eqb_spec l1 l0) as [->|]; cbn; auto. subst l0.
      rewrite count_mid in Hi. cbn in Hi. rewrite lockid_eqb_refl in Hi. cbn in Hi. lia.
Qed.

Lemma run_late l n s s' : (forall q, of_folder q -> outside l (TRun (program q))) ->
  run s s' -> wedged l s -> List.length (threads s) = n -> wedged l s' /\ late l n s'.
Proof.
  intros Hp Hr Hw Hn. induction Hr as [s|s s1 s2 Hr IH Hs].
  - split; auto. intros i q g Hi Hin. assert (i < List.length (threads s)) by (apply nth_error_Some; congruence). lia.
  - destruct (IH Hw Hn) as [Hw1 Hl1]. destruct Hs as [s' s'' _ Hs|c m ts q _].
    + split; [eapply gstep_wedged; eauto|eapply gstep_late; eauto].
    + split.
      * destruct Hw1 as (H1 & H2 & H3). unfold wedged in *. cbn [threads locks] in *.
        rewrite !count_app. cbn. rewrite !Nat.add_0_r. auto.
      * intros i q0 g0 Hi Hin Hq. cbn [threads] in Hin.
        destruct (lt_dec i (List.length ts)).
        -- rewrite nth_error_app1 in Hin by auto. now apply (Hl1 i q0).
        -- rewrite nth_error_app2 in Hin by lia. destruct (i - _) as [|[|j]]; try discriminate.
           injection Hin as <- <-. now apply Hp.
Qed.
Lemma program_outside q : of_folder q -> outside LApp (TRun (program q)).
Proof. destruct q; cbn; auto; contradiction. Qed.

(** ** Running one request after the other *)
Lemma run_trans s1 s2 s3 : run s1 s2 -> run s2 s3 -> run s1 s3.
Proof. intros H1 H2. revert H1. induction H2 as [s|s s' s'' H2 IH Hs]; auto. intros H1. exact (run_step _ _ _ _ _ _ _ _ _ _ _ (IH H1) Hs). Qed.
Lemma run_one s s' : up s -> gstep s s' -> run s s'.
Proof. intros Hu H. eapply run_step; [apply run_refl|now apply step_run]. Qed.
Lemma run_cons s1 s2 s3 : up s1 -> gstep s1 s2 -> run s2 s3 -> run s1 s3.
Proof. intros Hu H1. apply run_trans. now apply run_one. Qed.

Definition free (m : lockid -> rwmutex) : Prop := forall l, m l = RW 0 false.
Definition calm (ts : list thread) : Prop := Forall (fun t => (forall l, waits l (snd t) = false) /\ snd t <> TRun Crash) ts.
Lemma calm_up c m ts : calm ts -> up (State c m ts).
Proof. apply Forall_impl. tauto. Qed.
Lemma calm_up_mid c m a q g b : calm a -> calm b -> g <> TRun Crash -> up (State c m (a ++ (q, g) :: b)).
Proof. intros Ha Hb Hg. apply Forall_split. repeat split; auto; apply (calm_up c m); auto. Qed.
Lemma calm_woken l ts : calm ts -> woken l ts = ts.
Proof.
  induction 1 as [|[q g] ts [H _] _ IH]; cbn; auto. rewrite IH. f_equal. f_equal. specialize (H l). cbn in H.
  destruct g; auto. cbn in *. now rewrite H.
Qed.
Lemma calm_blocked l ts : calm ts -> blocked l ts = 0.
Proof.
  unfold blocked. induction 1 as [|[q g] ts [H _] _ IH]; cbn; auto. now rewrite (H l : waits l g = false).
Qed.

(** Execution of a program when nobody else does anything *)
Inductive solo : list (string * value) -> prog -> res value -> list (string * value) -> Prop :=
| solo_answer : forall c r, solo c (Answer r) r c
| solo_miss : forall (c : list (string * value)) l (get : bool) key (hit : value -> option prog) miss r c',
    (if get then mget String.eqb key c else None) = None -> solo c miss r c' ->
    solo c (Lookup l get key hit miss) r c'
| solo_hit : forall (c : list (string * value)) l (get : bool) key (hit : value -> option prog) miss v p r c',
    (if get then mget String.eqb key c else None) = Some v -> hit v = Some p -> solo c p r c' ->
    solo c (Lookup l get key hit miss) r c'
| solo_compute : forall c (X : Type) (P : X -> Prop) (k : X -> prog) (x : X) r c',
    P x -> solo c (k x) r c' -> solo c (Compute X P k) r c'
| solo_spawn : forall c l key v k r c',
    solo (mset String.eqb key v c) k r c' -> solo c (Spawn l key v k) r c'.

Lemma solo_call c (X : Type) (P : X -> Prop) (D : Prop) (k : X -> prog) (x : X) r c' :
  P x -> solo c (k x) r c' -> solo c (Call X P D k) r c'.
Proof. intros HP Hs. apply (solo_compute c (option X) _ _ (Some x)); auto. Qed.

Lemma free_reset m l : free m -> free (set_lock (set_lock m l (RW 1 false)) l (RW 0 false)).
Proof. intros H l0. unfold set_lock. destruct (lockid_eqb l0 l); auto. Qed.

Lemma read_done c m a q l get key hit miss p b :
  free m -> calm a -> calm b -> after_get c l get key hit miss = TLeave l p ->
  exists m', run (State c m (a ++ (q, TRun (Lookup l get key hit miss)) :: b)) (State c m' (a ++ (q, TRun p) :: b)) /\ free m'.
Proof.
  intros Hm Ha Hb Hg. eexists. split.
  - eapply run_cons; [apply calm_up_mid; auto; discriminate|apply gs_rlock; now rewrite Hm|].
    eapply run_cons; [apply calm_up_mid; auto; discriminate|apply gs_get|]. rewrite Hg.
    apply run_one; [apply calm_up_mid; auto; discriminate|]. apply gs_runlock.
  - intros l0. unfold set_lock. destruct (lockid_eqb_spec l0 l) as [->|]; auto.
    cbn. rewrite lockid_eqb_refl. cbn. now rewrite Hm.
Qed.
Lemma write_done c m a q l key v b :
  free m -> calm a -> calm b ->
  exists m', run (State c m (a ++ (q, WStart l key v) :: b)) (State (mset String.eqb key v c) m' (a ++ (q, WEnd) :: b)) /\ free m'.
Proof.
  intros Hm Ha Hb. eexists. split.
  - eapply run_cons; [apply calm_up_mid; auto; discriminate|apply gs_lock; now rewrite Hm|].
    eapply run_cons; [apply calm_up_mid; auto; discriminate|apply gs_enter; rewrite set_lock_eq; cbn; now rewrite Hm|].
    eapply run_cons; [apply calm_up_mid; auto; discriminate|apply gs_set|].
    pose proof (gs_unlock _ _ _ _ (mset String.eqb key v c) (set_lock m l (RW (readers (m l)) true)) a q l b) as H.
    rewrite !calm_woken in H by auto. apply run_one; [apply calm_up_mid; auto; discriminate|]. exact H.
  - intros l0. unfold set_lock. destruct (lockid_eqb_spec l0 l) as [->|]; auto.
    cbn. rewrite lockid_eqb_refl. cbn. rewrite Hm, calm_blocked; auto. now apply Forall_app.
Qed.

Lemma solo_run c p r c' : solo c p r c' -> forall m ts q b, free m -> calm ts -> calm b ->
  exists m' ws, run (State c m (ts ++ (q, TRun p) :: b)) (State c' m' (ts ++ (q, TRun (Answer r)) :: b ++ ws)) /\
    free m' /\ calm ws /\ Forall (fun t => t = (None, WEnd)) ws.
Proof.
  induction 1 as [c r|c l get key hit miss r c' Hg Hs IH|c l get key hit miss v p r c' Hg Hh Hs IH
                 |c X P k x r c' Hx Hs IH|c l key v k r c' Hs IH]; intros m ts q b Hm Ht Hb.
  - exists m, []. rewrite app_nil_r. repeat split; auto using run_refl; constructor.
  - destruct (read_done c m ts q l get key hit miss miss b Hm Ht Hb) as (m1 & R1 & H1).
    { unfold after_get. now rewrite Hg. }
    destruct (IH m1 ts q b H1 Ht Hb) as (m' & ws & R2 & H2). exists m', ws. split; auto. eapply run_trans; eauto.
  - destruct (read_done c m ts q l get key hit miss p b Hm Ht Hb) as (m1 & R1 & H1).
    { unfold after_get. now rewrite Hg, Hh. }
    destruct (IH m1 ts q b H1 Ht Hb) as (m' & ws & R2 & H2). exists m', ws. split; auto. eapply run_trans; eauto.
  - destruct (IH m ts q b Hm Ht Hb) as (m' & ws & R2 & H2). exists m', ws. split; auto.
    eapply run_cons; [apply calm_up_mid; auto; discriminate|eapply gs_compute; eauto|auto].
  - assert (Hc : calm (ts ++ (q, TRun k) :: b)).
    { apply Forall_split. repeat split; auto. cbn. intros [= ->]. inversion Hs. }
    destruct (write_done c m (ts ++ (q, TRun k) :: b) None l key v [] Hm Hc ltac:(constructor)) as (m1 & R1 & H1).
    assert (Hb' : calm (b ++ [(None, WEnd)])).
    { apply Forall_app. split; auto. constructor; auto. split; [reflexivity|discriminate]. }
    destruct (IH m1 ts q _ H1 Ht Hb') as (m' & ws & R2 & H2 & H3 & H4).
    exists m', ((None, WEnd) :: ws). repeat split; auto.
    + eapply run_cons; [apply calm_up_mid; auto; discriminate|apply gs_spawn|].
      eapply run_trans.
      * rewrite app_comm_cons, app_assoc. exact R1.
      * rewrite <- app_assoc, <- app_comm_cons. rewrite <- app_assoc in R2. exact R2.
    + constructor; auto. split; [reflexivity|discriminate].
Qed.

Lemma serve c m ts q r c' : free m -> calm ts -> solo c (program q) r c' ->
  exists m' ws, run (State c m ts) (State c' m' (ts ++ (Some q, TRun (Answer r)) :: ws)) /\
    free m' /\ calm (ts ++ (Some q, TRun (Answer r)) :: ws) /\ Forall (fun t => t = (None, WEnd)) ws.
Proof.
  intros Hm Ht Hs. destruct (solo_run _ _ _ _ Hs m ts (Some q) [] Hm Ht ltac:(constructor)) as (m' & ws & R & H1 & H2 & H3).
  exists m', ws. repeat split; auto.
  - eapply run_trans; [|exact R]. eapply run_step; [apply run_refl|apply step_request; now apply calm_up].
  - apply Forall_split. repeat split; auto. discriminate.
Qed.

(** Execution of a program, alone, that ends the process *)
Inductive doomed : list (string * value) -> prog -> Prop :=
| doomed_crash : forall c, doomed c Crash
| doomed_miss : forall (c : list (string * value)) l (get : bool) key (hit : value -> option prog) miss,
    (if get then mget String.eqb key c else None) = None -> doomed c miss -> doomed c (Lookup l get key hit miss)
| doomed_compute : forall c (X : Type) (P : X -> Prop) (k : X -> prog) (x : X),
    P x -> doomed c (k x) -> doomed c (Compute X P k)
| doomed_spawn : forall c l key v k,
    k <> Crash -> doomed (mset String.eqb key v c) k -> doomed c (Spawn l key v k).

Lemma doomed_run c p : doomed c p -> forall m ts q b, free m -> calm ts -> calm b ->
  exists c' m' ws, run (State c m (ts ++ (q, TRun p) :: b)) (State c' m' (ts ++ (q, TRun Crash) :: b ++ ws)) /\
    Forall (fun t => t = (None, WEnd)) ws.
Proof.
  induction 1 as [c|c l get key hit miss Hg Hs IH|c X P k x Hx Hs IH|c l key v k Hk Hs IH]; intros m ts q b Hm Ht Hb.
  - exists c, m, []. rewrite app_nil_r. split; auto using run_refl.
  - destruct (read_done c m ts q l get key hit miss miss b Hm Ht Hb) as (m1 & R1 & H1).
    { unfold after_get. now rewrite Hg. }
    destruct (IH m1 ts q b H1 Ht Hb) as (c' & m' & ws & R2 & H2). exists c', m', ws. split; auto. eapply run_trans; eauto.
  - destruct (IH m ts q b Hm Ht Hb) as (c' & m' & ws & R2 & H2). exists c', m', ws. split; auto.
    eapply run_cons; [apply calm_up_mid; auto; discriminate|eapply gs_compute; eauto|auto].
  - assert (Hc : calm (ts ++ (q, TRun k) :: b)).
    { apply Forall_split. repeat split; auto. cbn. congruence. }
    destruct (write_done c m (ts ++ (q, TRun k) :: b) None l key v [] Hm Hc ltac:(constructor)) as (m1 & R1 & H1).
    assert (Hb' : calm (b ++ [(None, WEnd)])).
    { apply Forall_app. split; auto. constructor; auto. split; [reflexivity|discriminate]. }
    destruct (IH m1 ts q _ H1 Ht Hb') as (c' & m' & ws & R2 & H2).
    exists c', m', ((None, WEnd) :: ws). split; auto.
    eapply run_cons; [apply calm_up_mid; auto; discriminate|apply gs_spawn|].
    eapply run_trans.
    + rewrite app_comm_cons, app_assoc. exact R1.
    + rewrite <- app_assoc, <- app_comm_cons. rewrite <- app_assoc in R2. exact R2.
Qed.

(** A sequence of requests, each served to the end before the next arrives *)
Inductive sequence : list (string * value) -> list (request * res value) -> list (string * value) -> Prop :=
| seq_nil : forall c, sequence c [] c
| seq_cons : forall c q r c1 l c2,
    solo c (program q) r c1 -> sequence c1 l c2 -> sequence c ((q, r) :: l) c2.

Lemma requests_ws ws : Forall (fun t : thread => t = (None, WEnd)) ws ->
  flat_map (fun t : thread => match fst t with Some q => [q] | None => [] end) ws = [].
Proof. induction 1 as [|t ws -> _ IH]; auto. Qed.

Lemma sequence_run c l c' : sequence c l c' -> forall m ts, free m -> calm ts ->
  exists m' ts', run (State c m ts) (State c' m' (ts ++ ts')) /\ free m' /\ calm (ts ++ ts') /\
    (forall q r, In (q, r) l -> answered (State c' m' (ts ++ ts')) q r) /\
    requests (State c' m' (ts ++ ts')) = (requests (State c m ts) ++ map fst l)%list.
Proof.
  induction 1 as [c|c q r c1 l c2 Hs Hl IH]; intros m ts Hm Ht.
  - exists m, []. rewrite app_nil_r. repeat split; auto using run_refl; [contradiction|]. now rewrite app_nil_r.
  - destruct (serve c m ts q r c1 Hm Ht Hs) as (m1 & ws & R1 & H1 & H2 & H3).
    destruct (IH m1 _ H1 H2) as (m' & ts' & R2 & H4 & H5 & H6 & H7).
    exists m', (((Some q, TRun (Answer r)) :: ws) ++ ts')%list. rewrite app_assoc. repeat split; auto.
    + eapply run_trans; eauto.
    + intros q0 r0 [[= <- <-]|Hin]; [|now apply H6]. unfold answered. cbn [threads].
      apply in_or_app. left. apply in_or_app. right. now left.
    + rewrite H7. unfold requests. cbn [threads map fst]. rewrite flat_map_app. cbn [flat_map fst].
      rewrite (requests_ws ws H3), <- app_assoc. reflexivity.
Qed.

(** A request, on its own, that may end the process *)
Lemma doomed_hydration id k f : discover sv id (Ok f) -> hydrate_dies sv f -> doomed [] (with_hydratable sv dry id k).
Proof.
  intros Hf Hd. apply doomed_miss; [now destruct (negb dry)|]. apply (doomed_compute _ _ _ _ (Ok f)); auto.
  apply (doomed_compute _ (option (res hyd)) _ _ None); auto. constructor.
Qed.
Lemma doomed_program q : deadly sv q -> doomed [] (program q).
Proof.
  destruct q as [id|id slug|id name cr|url| |]; cbn [deadly]; try contradiction.
  - intros (f & Hf & Hd). eapply doomed_hydration; eauto.
  - intros [(f & Hf & Hd)|(h & Hh & Hn & Hd)].
    + apply doomed_miss; [now destruct (negb dry)|]. eapply doomed_hydration; eauto.
    + apply doomed_miss; [now destruct (negb dry)|]. apply doomed_miss; [now destruct (negb dry)|].
      inversion Hh as [| |f r Hf Hy E]; subst. apply (doomed_compute _ _ _ _ (Ok f)); auto.
      apply (doomed_compute _ (option (res hyd)) _ _ (Some (Ok h))); auto. cbn beta iota.
      rewrite <- (names_document_iff slug h) in Hn. destruct (_ && _)%bool; [now elim Hn|].
      unfold save. destruct dry; [|apply doomed_spawn; [discriminate|]];
        (apply (doomed_compute _ (option (res (option string))) _ _ None); [exact Hd|constructor]).
  - intros (f & Hf & Hd). eapply doomed_hydration; eauto.
Qed.
Lemma ends_alone q : deadly sv q -> exists s, run (initial []) s /\ requests s = [q] /\ ended s.
Proof.
  intro Hd. destruct (doomed_run _ _ (doomed_program q Hd) (fun _ => RW 0 false) [] (Some q) []) as (c & m & ws & R & Hw).
  { now intros l. } { constructor. } { constructor. }
  exists (State c m ((Some q, TRun Crash) :: ws)). split; [|split].
  - eapply run_trans; [|exact R]. eapply run_step; [apply run_refl|]. apply (step_request _ _ _ _ _ sv dry injected [] _ [] q). constructor.
  - unfold requests. cbn. now rewrite (requests_ws ws Hw).
  - exists (Some q). now left.
Qed.
(** the same, while another request waits *)
Lemma ends_beside q q0 : (forall r, program q0 <> Answer r) -> program q0 <> Crash -> deadly sv q ->
  exists s, run (initial []) s /\ requests s = [q0; q] /\ ended s /\ forall r, ~ answered s q0 r.
Proof.
  intros Ha Hc Hd.
  destruct (doomed_run _ _ (doomed_program q Hd) (fun _ => RW 0 false) [(Some q0, TRun (program q0))] (Some q) []) as (c & m & ws & R & Hw).
  { now intros l. } { constructor; [|constructor]. split; [reflexivity|]. cbn. congruence. } { constructor. }
  exists (State c m ([(Some q0, TRun (program q0))] ++ (Some q, TRun Crash) :: [] ++ ws)). split; [|split; [|split]].
  - eapply run_trans; [|exact R]. eapply run_step; [eapply run_step; [apply run_refl|]|].
    + apply (step_request _ _ _ _ _ sv dry injected [] _ [] q0). constructor.
    + apply (step_request _ _ _ _ _ sv dry injected [] _ [(Some q0, TRun (program q0))] q). constructor; [cbn; congruence|constructor].
  - unfold requests. cbn. now rewrite (requests_ws ws Hw).
  - exists (Some q). right. now left.
  - intros r [X|[X|X]]; [injection X as X; exact (Ha r X)|discriminate X|]. rewrite Forall_forall in Hw. apply Hw in X. discriminate X.
Qed.
Lemma ended_stays s s' : run s s' -> ended s -> s' = s.
Proof.
  induction 1 as [s|s s1 s2 Hr IH Hs]; intro He; auto. specialize (IH He). subst s1. destruct Hs as [s s' Hu _|c m ts q Hu]; now apply up_not_ended in Hu.
Qed.

(** ** Keys *)
Lemma uses_save key k v (p : prog) : uses key (save dry k v p) -> k = key \/ uses key p.
Proof. unfold save. destruct dry; cbn; tauto. Qed.
Lemma uses_and_save key k P D : uses key (and_save dry k P D : prog) -> k = key.
Proof. cbn. intros ([[b|m|]|] & _ & H); cbn in H; try contradiction; apply uses_save in H as [H|[]]; auto. Qed.
Lemma uses_bytes key l get k (miss : prog) : uses key (Lookup l get k as_bytes miss) -> k = key \/ uses key miss.
Proof. cbn. intros [[_ H]|[H|(v & H)]]; auto. destruct v; cbn in H; contradiction. Qed.
Lemma uses_with key id k : uses key (with_hydratable sv dry id k) -> id = key \/ exists h, uses key (k h).
Proof.
  cbn. intros [[_ H]|[(d & _ & H)|(v & H)]]; auto.
  - destruct d as [f|m|]; cbn in H; try contradiction. destruct H as ([[h|m|]|] & _ & H); cbn in H; try contradiction;
      apply uses_save in H as [H|H]; eauto. contradiction.
  - destruct v; cbn in H; try contradiction. eauto.
Qed.
Lemma uses_program q key : uses key (program q) -> exists a, In a (resources q) /\ resource_key a = key.
Proof.
  destruct q as [id|id slug|id name cr|url| |]; cbn [CacheModel.program resources].
  - intros H. apply uses_with in H as [H|(h & H)]; [exists (ResFolder id); cbn; auto|].
    apply uses_bytes in H as [H|H]; [|apply uses_and_save in H]; exists (ResCatalog id); cbn; auto.
  - intros H. apply uses_bytes in H as [H|H]; [exists (ResRender id slug); cbn; auto|].
    apply uses_with in H as [H|([h|] & H)]; [exists (ResFolder id); cbn; auto| |contradiction].
    exists (ResRender id slug). split; cbn; auto.
    destruct (_ && _)%bool; [|now apply uses_and_save in H].
    destruct (doc_bytes sv (folder_of sv h)); [|contradiction]. apply uses_save in H as [H|[]]; auto.
  - intros H. apply uses_with in H as [H|(h & H)]; [exists (ResFolder id); cbn; auto|].
    apply uses_bytes in H as [H|H]; [|apply uses_and_save in H]; exists (ResFact id name cr); cbn; auto.
  - unfold hydrate_global_schema. destruct injected; [|contradiction]. intros H. exists (ResSchema url). split; [now left|].
    cbn in H. destruct H as [[_ H]|[([s|m|] & _ & H)|(v & H)]]; cbn in H; try contradiction; try tauto. destruct v; contradiction.
  - unfold hydrate_entity_names. destruct injected; [|contradiction]. intros H. exists ResNames. split; [now left|].
    cbn in H. destruct H as [[_ H]|[([s|m|] & _ & H)|(v & H)]]; cbn in H; try contradiction; try tauto. destruct v; contradiction.
  - unfold hydrate_unit_type_registry. destruct injected; [|contradiction]. intros H. exists ResUtr. split; [now left|].
    cbn in H. destruct H as [[_ H]|[([s|m|] & _ & H)|(v & H)]]; cbn in H; try contradiction; try tauto. destruct v; contradiction.
Qed.
End Proofs.

(** Slashes in keys *)
Fixpoint slashes (s : string) : nat :=
  match s with EmptyString => 0 | String c r => (if Ascii.eqb c "/" then 1 else 0) + slashes r end.
Lemma slashes_app a b : slashes (a ++ b) = slashes a + slashes b.
Proof. induction a as [|c a IH]; cbn; auto. rewrite IH. lia. Qed.
Lemma slashes_free s : free_of "/" s <-> slashes s = 0.
Proof.
  induction s as [|c s IH]; cbn; [tauto|]. destruct (Ascii.eqb_spec c "/"); split; intros H; try lia; try tauto.
Qed.
Lemma slashes_hex n h : slashes (hex n h) = 0.
Proof.
  induction n as [|n IH]; cbn; auto. rewrite IH.
  assert (Hc : Ascii.eqb (hex_digit (h / 16 ^ N.of_nat n mod 16)) "/" = false); [|now rewrite Hc].
  assert (Hlt : (h / 16 ^ N.of_nat n mod 16 < 16)%N) by (apply N.mod_lt; lia).
  set (d := (h / 16 ^ N.of_nat n mod 16)%N) in *. clearbody d.
  assert (In d [0;1;2;3;4;5;6;7;8;9;10;11;12;13;14;15]%N) as Hin.
  { cbn. lia. }
  cbn in Hin. repeat destruct Hin as [<-|Hin]; try reflexivity. contradiction.
Qed.
Lemma length_hex n h : String.length (hex n h) = n.
Proof. induction n; cbn; auto. Qed.

Lemma app_free_cancel c a b a' b' :
  free_of c a -> free_of c a' -> a ++ String c b = a' ++ String c b' -> a = a' /\ b = b'.
Proof.
  revert a'. induction a as [|x a IH]; intros [|x' a']; cbn; intros H1 H2 E.
  - now injection E.
  - injection E as -> _. tauto.
  - injection E as -> _. tauto.
  - injection E as -> E. destruct (IH a' (proj2 H1) (proj2 H2) E). now subst.
Qed.
Lemma app_free_cancel_r c a b a' b' :
  free_of c b -> free_of c b' -> a ++ String c b = a' ++ String c b' -> a = a' /\ b = b'.
Proof.
  revert a'. induction a as [|x a IH]; intros [|x' a']; cbn; intros H1 H2 E.
  - now injection E.
  - injection E as -> E. exfalso. clear H2. revert b H1 E. induction a' as [|y a' IH']; intros b H1 E; subst b; cbn in H1; [tauto|].
    destruct H1 as [_ H1]. eapply IH'; eauto.
  - injection E as -> E. exfalso. clear H1 IH. revert b' H2 E. induction a as [|y a' IH']; intros b' H1 E; subst b'; cbn in H1; [tauto|].
    destruct H1 as [_ H1]. eapply IH'; eauto.
  - injection E as -> E. destruct (IH a' H1 H2 E). now subst.
Qed.
Lemma app_cancel_l (a b b' : string) : a ++ b = a ++ b' -> b = b'.
Proof. induction a; cbn; auto. intros [= H]; auto. Qed.

Lemma usual_id q id : usual q -> In (ResFolder id) (resources q) -> free_of "/" id /\ id <> "names.json" /\ String.length id <> 32.
Proof. destruct q; cbn; intros H Hin; repeat destruct Hin as [Hin|Hin]; try discriminate; try contradiction; injection Hin as <-; tauto. Qed.

Lemma app_nil_end' s : s ++ "" = s.
Proof. induction s; cbn; congruence. Qed.

(** What the key of a resource of a usual request looks like *)
Definition shape (a : resource) : Prop :=
  match a with
  | ResFolder id => free_of "/" id /\ id <> "names.json" /\ String.length id <> 32
  | ResCatalog id => free_of "/" id
  | ResRender id slug => free_of "/" id /\ free_of "/" slug /\ slug <> ""
  | ResFact id name cr => free_of "/" id /\ free_of ":" cr
  | ResSchema url => slashes url >= 2 /\ url <> "http://www.xbrl.org/utr/utr.xml"
  | ResNames => True
  | ResUtr => True
  end.
Lemma usual_shape q a : usual q -> In a (resources q) -> shape a.
Proof.
  destruct q; cbn; intros H Hin; repeat destruct Hin as [Hin|Hin]; try contradiction; subst a; cbn; try tauto.
  destruct H as [(x & y & ->) H]. split; auto. rewrite slashes_app. cbn. lia.
Qed.

Lemma fact_source qs q q' a id name cr id' name' cr' :
  no_collision qs -> In q qs -> In q' qs -> In (ResFact id name cr) (resources q) -> In (ResFact id' name' cr') (resources q') ->
  shape (ResFact id name cr) -> shape (ResFact id' name' cr') ->
  resource_key (ResFact id name cr) = resource_key (ResFact id' name' cr') -> a = ResFact id name cr -> a = ResFact id' name' cr'.
Proof.
  intros Hn Hq Hq' Ha Ha' [S1 S2] [S1' S2'] E ->.
  destruct q; cbn in Ha; repeat destruct Ha as [Ha|Ha]; try discriminate; try contradiction. injection Ha as -> -> ->.
  destruct q'; cbn in Ha'; repeat destruct Ha' as [Ha'|Ha']; try discriminate; try contradiction. injection Ha' as -> -> ->.
  specialize (Hn _ _ _ _ _ _ Hq Hq' E).
  apply (app_free_cancel "/") in Hn as [-> Hn]; auto. cbn in Hn. injection Hn as Hn.
  apply (app_free_cancel_r ":") in Hn as [-> ->]; auto.
Qed.

Lemma usual_separate qs : (forall q, In q qs -> usual q) -> no_collision qs -> separate qs.
Proof.
  intros Hu Hn q q' a b Hq Hq' Ha Hb E.
  pose proof (usual_shape _ _ (Hu q Hq) Ha) as Sa. pose proof (usual_shape _ _ (Hu q' Hq') Hb) as Sb.
  destruct a as [id|id|id slug|id name cr|url| |], b as [id'|id'|id' slug'|id' name' cr'|url'| |];
    cbn [resource_key shape] in *;
    repeat match goal with H : _ /\ _ |- _ => destruct H end;
    repeat match goal with H : free_of "/" _ |- _ => apply slashes_free in H end;
    try reflexivity; try (now subst);
    try (assert (ES := f_equal slashes E); rewrite ?slashes_app, ?slashes_hex in ES; cbn in ES; rewrite ?slashes_app in ES; lia);
    try (assert (EL := f_equal String.length E); rewrite ?length_hex in EL; cbn [String.length] in EL; congruence);
    try congruence.
  - apply (app_free_cancel "/") in E as [-> _]; auto; now apply slashes_free.
  - exfalso. apply (app_free_cancel "/") in E as [_ E]; auto; now apply slashes_free.
  - exfalso. apply (app_free_cancel "/") in E as [_ E]; auto; now apply slashes_free.
  - apply (app_free_cancel "/") in E as [-> ->]; auto; now apply slashes_free.
  - eapply (fact_source qs q q'); eauto; split; auto; now apply slashes_free.
Qed.
