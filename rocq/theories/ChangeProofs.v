(** * ChangeProofs: lemmas about what stays in the cache *)
From Coq Require Import Strings.String Lists.List Bool Lia Arith.
From Verif Require Import GoBase GoSpec GoFacts CatalogModel CacheModel CacheSpec CacheProofs ChangeSpec.
Import ListNotations.
Local Open Scope string_scope.

Definition page (q : request) : string :=
  match q with
  | RCatalog id => id ++ "/"
  | RRender id slug => id ++ "/" ++ slug
  | RFact id n c => fact_key id n c
  | _ => ""
  end.
Definition fid (q : request) : string :=
  match q with RCatalog id | RRender id _ | RFact id _ _ => id | _ => "" end.
Definition page_res (q : request) : resource :=
  match q with
  | RCatalog id => ResCatalog id
  | RRender id slug => ResRender id slug
  | RFact id n c => ResFact id n c
  | _ => ResNames
  end.
Lemma page_key q : of_folder q -> resource_key (page_res q) = page q.
Proof. destruct q; cbn; tauto. Qed.
Lemma page_in q : of_folder q -> In (page_res q) (resources q).
Proof. destruct q; cbn; tauto. Qed.
Lemma fid_in q : of_folder q -> In (ResFolder (fid q)) (resources q).
Proof. destruct q; cbn; tauto. Qed.
Lemma page_res_inj q q' : of_folder q -> of_folder q' -> page_res q = page_res q' -> q = q'.
Proof. destruct q, q'; cbn; try tauto; intros _ _ [= ]; subst; auto. Qed.

Section Change.
Context {F H S N U : Type}.
Notation value := (value H S N U).
Notation prog := (prog H S N U).
Notation state := (state H S N U).
Notation goroutine := (goroutine H S N U).
Notation thread := (option request * goroutine)%type.
Variable sv : services F H S N U.
Variable injected : bool.
Notation program := (program sv false injected).
Notation run := (run sv false injected).
Notation step := (step sv false injected).

Notation woken l a := (map (fun t => (fst t, wake l (snd t))) a).

Definition gwrites (g : goroutine) (k : string) (v : value) : Prop :=
  match g with WStart _ k' v' | WWait _ k' v' | WIn _ k' v' => k' = k /\ v' = v | _ => False end.
Definition noted (s : state) (k : string) (v : value) : Prop :=
  In (k, v) (stored s) \/ exists t, In t (threads s) /\ gwrites (snd t) k v.
Definition known (s : state) (k : string) : Prop := exists v, noted s k v.

Lemma get_In k (c : list (string * value)) v : mget String.eqb k c = Some v -> In (k, v) c.
Proof.
  induction c as [|[k' v'] c IH]; cbn; [discriminate|]. destruct (String.eqb_spec k' k) as [->|].
  - intros [= ->]. now left.
  - intros E. right; auto.
Qed.
Lemma set_In k v (c : list (string * value)) k' v' :
  In (k', v') (mset String.eqb k v c) -> In (k', v') c \/ (k' = k /\ v' = v).
Proof.
  induction c as [|[a w] c IH]; cbn.
  - intros [[= <- <-]|[]]. now right.
  - destruct (String.eqb_spec a k) as [->|]; cbn.
    + intros [[= <- <-]|I]; auto.
    + intros [[= <- <-]|I]; auto. apply IH in I. tauto.
Qed.
Lemma In_mset_other k v (c : list (string * value)) k' v' : In (k', v') c -> k' <> k -> In (k', v') (mset String.eqb k v c).
Proof.
  induction c as [|[a w] c IH]; cbn; [contradiction|]. intros [[= <- <-]|I] Hne.
  - destruct (String.eqb_spec a k); [contradiction|now left].
  - destruct (String.eqb_spec a k); right; auto.
Qed.
Lemma In_mset_same k v (c : list (string * value)) : In (k, v) (mset String.eqb k v c).
Proof.
  induction c as [|[a w] c IH]; cbn; [now left|]. destruct (String.eqb_spec a k) as [->|]; [now left|now right].
Qed.
Lemma mget_mset k v (c : list (string * value)) k' :
  mget String.eqb k' (mset String.eqb k v c) = if String.eqb k k' then Some v else mget String.eqb k' c.
Proof.
  induction c as [|[a w] c IH]; cbn; [reflexivity|]. destruct (String.eqb_spec a k) as [->|Hn]; cbn.
  - destruct (String.eqb_spec k k'); reflexivity.
  - rewrite IH. destruct (String.eqb_spec a k') as [->|]; auto. destruct (String.eqb_spec k k') as [->|]; [congruence|reflexivity].
Qed.
Lemma In_mget_some k v (c : list (string * value)) : In (k, v) c -> exists v', mget String.eqb k c = Some v'.
Proof.
  induction c as [|[a w] c IH]; cbn; [contradiction|]. intros [[= -> ->]|I].
  - rewrite String.eqb_refl. eauto.
  - destruct (String.eqb a k); eauto.
Qed.

Lemma gwrites_wake l g k v : gwrites (wake l g) k v <-> gwrites g k v.
Proof. destruct g; cbn; try tauto. destruct (lockid_eqb _ _); cbn; tauto. Qed.

Lemma In_wake l (t : thread) a : In t (woken l a) -> exists t0, In t0 a /\ t = (fst t0, wake l (snd t0)).
Proof. intros I. apply in_map_iff in I as (t0 & <- & I). eauto. Qed.
Lemma wake_In l (t : thread) a : In t a -> In (fst t, wake l (snd t)) (woken l a).
Proof. intros I. apply in_map_iff. exists t. auto. Qed.

(** what is noted stays noted, perhaps with another value *)
Lemma gstep_known (s s' : state) k : gstep s s' -> known s k -> known s' k.
Proof.
  intros G [v [I|([q g] & I & Wr)]].
  - destruct G; cbn in *; try solve [exists v; left; exact I].
    destruct (string_dec k key) as [->|Hn]; [exists v0|exists v]; left; cbn; [apply In_mset_same|now apply In_mset_other].
  - destruct G; cbn [threads stored] in *; apply in_app_or in I; cbn in Wr;
      try (destruct I as [I|[I|I]];
           [exists v; right; exists (q, g); split; [cbn; apply in_or_app; now left|exact Wr]
           |injection I as -> <-
           |exists v; right; exists (q, g); split; [cbn; apply in_or_app; right; right; try (apply in_or_app; left); exact I|exact Wr]];
           cbn in Wr; try contradiction).
    + destruct Wr as [-> ->]. exists v. right. exists (q, WWait l k v). split; [apply in_or_app; right; now left|cbn; auto].
    + destruct Wr as [-> ->]. exists v. right. exists (q, WIn l k v). split; [apply in_or_app; right; now left|cbn; auto].
    + destruct Wr as [-> ->]. exists v. left. apply In_mset_same.
    + destruct I as [I|[I|I]].
      * exists v. right. exists (q, wake l g). split; [|now apply gwrites_wake]. apply in_or_app. left. now apply (wake_In l (q, g)).
      * injection I as -> <-. contradiction.
      * exists v. right. exists (q, wake l g). split; [|now apply gwrites_wake]. apply in_or_app. right. right. now apply (wake_In l (q, g)).
Qed.
(** what is noted was noted, or is written by the goroutine that has moved *)
Lemma gstep_noted (s s' : state) k v : gstep s s' -> noted s' k v ->
  noted s k v \/ exists c m a q l p b, s = State c m (a ++ (q, TRun (Spawn l k v p)) :: b)%list /\
    s' = State c m (a ++ (q, TRun p) :: b ++ [(None, WStart l k v)])%list.
Proof.
  intros G [I|([q g] & I & Wr)].
  - destruct G; cbn in *; try solve [left; left; exact I].
    apply set_In in I as [I|[-> ->]]; [left; left; exact I|]. left. right. eexists. split; [cbn; apply in_or_app; right; now left|cbn; auto].
  - destruct G; cbn [threads stored] in *; apply in_app_or in I; cbn in Wr;
      try (destruct I as [I|[I|I]];
           [left; right; exists (q, g); split; [cbn; apply in_or_app; now left|exact Wr]
           |injection I as -> <-
           |left; right; exists (q, g); split; [cbn; apply in_or_app; right; right; exact I|exact Wr]];
           cbn in Wr; try contradiction).
    + destruct I as [I|[I|I]].
      * left. right. exists (q, g). split; [cbn; apply in_or_app; now left|exact Wr].
      * injection I as -> <-. contradiction.
      * apply in_app_or in I as [I|[I|[]]].
        -- left. right. exists (q, g). split; [cbn; apply in_or_app; right; now right|exact Wr].
        -- injection I as <- <-. cbn in Wr. destruct Wr as [-> ->]. right. do 7 eexists. split; reflexivity.
    + exfalso. unfold after_get in Wr. destruct (if get then mget String.eqb key c else None) as [v0|]; [destruct (hit v0)|]; exact Wr.
    + left. right. eexists. split; [cbn; apply in_or_app; right; now left|cbn; exact Wr].
    + left. right. eexists. split; [cbn; apply in_or_app; right; now left|cbn; exact Wr].
    + destruct I as [I|[I|I]].
      * apply In_wake in I as ([q1 g1] & I & E). injection E as -> ->. left. right. exists (q1, g1). split; [cbn; apply in_or_app; now left|now apply gwrites_wake in Wr].
      * injection I as -> <-. contradiction.
      * apply In_wake in I as ([q1 g1] & I & E). injection E as -> ->. left. right. exists (q1, g1). split; [cbn; apply in_or_app; right; now right|now apply gwrites_wake in Wr].
Qed.
Lemma gstep_answered (s s' : state) q r : gstep s s' -> answered s q r -> answered s' q r.
Proof.
  unfold answered. intros G I. destruct G; cbn [threads] in *; apply in_app_or in I;
    try (destruct I as [I|[I|I]]; [apply in_or_app; now left|discriminate I|apply in_or_app; right; right; try (apply in_or_app; left); exact I]).
  destruct I as [I|[I|I]]; [|discriminate I|]; apply (wake_In l) in I; cbn in I; apply in_or_app; [now left|right; now right].
Qed.
Lemma step_answered s s' q r : step s s' -> answered s q r -> answered s' q r.
Proof.
  intros [s1 s2 _ G|c m ts q' _]; [now apply gstep_answered|]. unfold answered. cbn. intros I. apply in_or_app. now left.
Qed.
Lemma run_answered s s' q r : run s s' -> answered s q r -> answered s' q r.
Proof. induction 1; eauto using step_answered. Qed.

(** ** Requests that leave what they show in the cache *)
Fixpoint pays (q : request) (K : string -> Prop) (p : prog) : Prop :=
  match p with
  | Answer r => of_folder q -> forall b, r = Ok (VBytes b) -> K (page q) /\ match q with RRender _ _ => True | _ => K (fid q) end
  | Lookup _ get key hit miss =>
      pays q K miss /\ forall v, match hit v with Some p' => pays q (fun k => K k \/ k = key) p' | None => True end
  | Compute X P k => forall x, P x -> pays q K (k x)
  | Spawn _ key v k =>
      (forall x, v = VBytes x -> of_folder q /\ key = page q /\
         exists r, k = Answer r /\ (r = Ok (VBytes x) \/ x = None /\ exists m, r = Err m)) /\
      pays q (fun k => K k \/ k = key) k
  | Crash => True
  end.
Lemma pays_mono q : forall (p : prog) (K K' : string -> Prop), (forall k, K k -> K' k) -> pays q K p -> pays q K' p.
Proof.
  fix IH 1. intros p K K' HK. destruct p as [r|l get key hit miss|X P k|l key v k|]; cbn [pays].
  - clear IH. intros Hp O b E. destruct (Hp O b E). split; auto. destruct q; auto.
  - intros [Hm Hh]. split; [exact (IH miss K K' HK Hm)|]. intros v. specialize (Hh v). destruct (hit v) as [p'|]; [|exact Hh].
    refine (IH p' _ _ _ Hh). intros k [E|E]; [left; exact (HK k E)|right; exact E].
  - intros Hk x Px. exact (IH (k x) K K' HK (Hk x Px)).
  - intros [Hv Hk]. split; [exact Hv|]. refine (IH k _ _ _ Hk). intros k0 [E|E]; [left; exact (HK k0 E)|right; exact E].
  - intros E. exact E.
Qed.
Definition gpays (q : request) (K : string -> Prop) (g : goroutine) : Prop :=
  match g with
  | TRun p | TLeave _ p => pays q K p
  | TWait l get key hit miss | TRead l get key hit miss => pays q K (Lookup l get key hit miss)
  | _ => True
  end.
Definition origin (s : state) (k : string) (x : option string) : Prop :=
  exists q r, of_folder q /\ k = page q /\ answered s q r /\ (r = Ok (VBytes x) \/ x = None /\ exists m, r = Err m).
Definition writer (g : goroutine) : Prop :=
  match g with TRun _ | TWait _ _ _ _ _ | TRead _ _ _ _ _ | TLeave _ _ => False | _ => True end.
Definition pinv (s : state) : Prop :=
  (forall q g, In (Some q, g) (threads s) -> gpays q (known s) g) /\
  (forall k x, noted s k (VBytes x) -> origin s k x) /\
  (forall g, In (None, g) (threads s) -> writer g).

Lemma gpays_mono q (K K' : string -> Prop) g : (forall k, K k -> K' k) -> gpays q K g -> gpays q K' g.
Proof. intros HK. destruct g; cbn [gpays]; auto; apply pays_mono; auto. Qed.
Lemma gpays_wake q K l g : gpays q K g -> gpays q K (wake l g).
Proof. destruct g; cbn [wake]; auto. destruct (lockid_eqb _ _); auto. Qed.

Lemma gstep_pinv (s s' : state) : gstep s s' -> pinv s -> pinv s'.
Proof.
  intros G (HT & HO & HN).
  assert (MO : forall q g, gpays q (known s) g -> gpays q (known s') g).
  { intros q g. apply gpays_mono. intros k. now apply gstep_known. }
  assert (OO : forall k x, origin s k x -> origin s' k x).
  { intros k x (q & r & O & E & A & R). exists q, r. eauto using gstep_answered. }
  assert (HO' : forall k x, noted s' k (VBytes x) -> origin s' k x).
  { intros k x I. pose proof (gstep_noted _ _ _ _ G I) as [I0|(c&m&a&q&l&p&b&E&E')]; [eauto|]. subst s s'.
    destruct q as [q|]; [|exfalso; apply (HN (TRun (Spawn l k (VBytes x) p))); cbn; apply in_or_app; right; now left].
    assert (P : gpays q (known (State c m (a ++ (Some q, TRun (Spawn l k (VBytes x) p)) :: b))) (TRun (Spawn l k (VBytes x) p)))
      by (apply HT; cbn; apply in_or_app; right; now left).
    cbn in P. destruct P as [P _]. destruct (P x eq_refl) as (O & -> & r & -> & R). exists q, r. repeat split; auto.
    unfold answered. cbn. apply in_or_app. right. now left. }
  split; [|split; [exact HO'|]].
  - intros q g I. destruct G; cbn [threads] in I; apply in_app_or in I;
      try (destruct I as [I|[I|I]];
           [apply MO, HT; cbn; apply in_or_app; now left
           |injection I as E <-; subst
           |apply MO, HT; cbn; apply in_or_app; right; right; exact I]).
    + assert (P0 : gpays q (known (State c m (a ++ (Some q, TRun (Compute X P k)) :: b))) (TRun (Compute X P k))) by (apply HT; cbn; apply in_or_app; right; now left).
      apply MO. cbn in *. now apply P0.
    + destruct I as [I|[I|I]].
      * apply MO, HT. cbn. apply in_or_app. now left.
      * injection I as E <-; subst.
        assert (P : gpays q (known (State c m (a ++ (Some q, TRun (Spawn l key v k)) :: b))) (TRun (Spawn l key v k))) by (apply HT; cbn; apply in_or_app; right; now left).
        cbn in P. destruct P as [_ P]. cbn. revert P. apply pays_mono. intros k0 [K| ->].
        -- revert K. apply gstep_known. constructor.
        -- exists v. right. exists (None, WStart l key v). split; [cbn; apply in_or_app; right; right; apply in_or_app; right; now left|cbn; auto].
      * apply in_app_or in I as [I|[I|[]]]; [|discriminate I]. apply MO, HT. cbn. apply in_or_app. right. now right.
    + apply MO, (HT q (TRun (Lookup l get key hit miss))). cbn. apply in_or_app. right. now left.
    + apply MO, (HT q (TRun (Lookup l get key hit miss))). cbn. apply in_or_app. right. now left.
    + assert (P : gpays q (known (State c m (a ++ (Some q, TRead l get key hit miss) :: b))) (TRead l get key hit miss)) by (apply HT; cbn; apply in_or_app; right; now left).
      cbn in P. destruct P as [P1 P2]. unfold after_get in *.
      destruct (if get then mget String.eqb key c else None) as [v|] eqn:Eg.
      * assert (KK : In (key, v) c) by (destruct get; [now apply get_In|discriminate]).
        specialize (P2 v). destruct (hit v) as [p|]; [|cbn; intros ? ? [=]]. cbn. revert P2. apply pays_mono.
        intros k [K| ->]; [revert K; intros [v0 [K|(t&K&K')]]; [exists v0; now left|]|exists v; now left].
        cbn [threads] in K. exists v0. right. apply in_app_or in K as [K|[K|K]].
        -- exists t. split; auto. cbn. apply in_or_app. now left.
        -- subst t. contradiction.
        -- exists t. split; auto. cbn. apply in_or_app. right. now right.
      * apply MO. cbn. exact P1.
    + apply MO, (HT q (TLeave l p)). cbn. apply in_or_app. right. now left.
    + exact I.
    + exact I.
    + exact I.
    + destruct I as [I|[I|I]]; [|injection I as E <-; exact Logic.I|];
        apply In_wake in I as ([q1 g1] & I & E); injection E as E1 ->; subst q1; apply gpays_wake, MO, HT; cbn; apply in_or_app; [now left|right; now right].
  - intros g I.
    assert (Z : forall a0 g b0, threads s = (a0 ++ (None, g) :: b0)%list -> writer g).
    { intros a0 g0 b0 E. apply HN. rewrite E. apply in_or_app. right. now left. }
    destruct G; cbn [threads] in I, Z; apply in_app_or in I;
      try (destruct I as [I|[I|I]];
           [apply HN; cbn; apply in_or_app; now left
           |injection I as E <-; subst; try exact Logic.I; exfalso; pose proof (Z _ _ _ eq_refl) as Z0; exact Z0
           |apply HN; cbn; apply in_or_app; right; right; exact I]).
    + destruct I as [I|[I|I]].
      * apply HN; cbn; apply in_or_app; now left.
      * injection I as E <-; subst. exfalso. pose proof (Z _ _ _ eq_refl) as Z0; exact Z0.
      * apply in_app_or in I as [I|[I|[]]]; [apply HN; cbn; apply in_or_app; right; now right|]. injection I as <-. exact Logic.I.
    + destruct I as [I|[I|I]]; [|injection I as E <-; exact Logic.I|];
        apply In_wake in I as ([q1 g1] & I & E); injection E as E1 ->; subst q1; cbn in *;
        [pose proof (HN g1 ltac:(cbn; apply in_or_app; now left)) as X|pose proof (HN g1 ltac:(cbn; apply in_or_app; right; now right)) as X];
        destruct g1; cbn in *; auto; contradiction.
Qed.

Lemma pays_and_save q key (K : string -> Prop) P D : of_folder q -> key = page q ->
  match q with RRender _ _ => True | _ => K (fid q) end -> pays q K (and_save false key P D).
Proof.
  intros O -> KF. unfold and_save, Call. cbn [pays]. intros [[b|m|]|] _; cbn [save pays]; auto; try discriminate.
  - split; [intros x [= <-]; repeat split; auto; eexists; eauto|]. intros _ b' _. split; auto. destruct q; auto.
  - split; [intros x [= <-]; repeat split; auto; eexists; split; [reflexivity|]; right; eauto|]. intros _ b' [=].
Qed.
Lemma pays_page q (K : string -> Prop) miss : of_folder q -> match q with RRender _ _ => True | _ => K (fid q) end -> pays q K miss ->
  pays q K (Lookup LApp true (page q) as_bytes miss).
Proof.
  intros O KF M. cbn [pays]. split; auto. intros [h|b|x|n|u]; cbn [as_bytes]; auto. cbn [pays]. intros _ b' _. split; auto. destruct q; auto.
Qed.
Lemma pays_with q (K : string -> Prop) k : of_folder q -> (forall h, pays q (fun x => K x \/ x = fid q) (k h)) ->
  pays q K (with_hydratable sv false (fid q) k).
Proof.
  intros O HK. unfold with_hydratable. cbn [pays negb]. split.
  - intros [f|m|] _; cbn [pays]; try discriminate. unfold Call. cbn [pays]. intros [[h|m|]|] _; cbn [save pays]; auto; try discriminate.
    + split; [discriminate|]. apply HK.
    + split; [discriminate|]. discriminate.
  - intros [h|b|x|n|u]; cbn [as_hyd]; auto.
Qed.
Lemma pays_program q K : pays q K (program q).
Proof.
  destruct q as [id|id slug|id n c|url| |]; cbn [CacheModel.program].
  - apply (pays_with (RCatalog id)); [exact I|]. intros h. apply (pays_page (RCatalog id)); [exact I|now right|]. apply pays_and_save; cbn; auto.
  - apply (pays_page (RRender id slug)); try exact I. apply (pays_with (RRender id slug)); [exact I|]. intros [h|]; [|cbn; discriminate].
    destruct (_ && _).
    + destruct (doc_bytes sv _) as [d|]; cbn [save pays]; [|discriminate].
      split; [intros x [= <-]; cbn; repeat split; auto; eexists; eauto|]. intros _ b _. cbn. auto.
    + apply pays_and_save; cbn; auto.
  - apply (pays_with (RFact id n c)); [exact I|]. intros h. apply (pays_page (RFact id n c)); [exact I|now right|]. apply pays_and_save; cbn; auto.
  - unfold hydrate_global_schema. destruct injected; cbn; [|tauto]. split; [|intros [?|?|?|?|?]; cbn; tauto]. intros [x|m|] _; cbn; try tauto. split; [discriminate|tauto].
  - unfold hydrate_entity_names. destruct injected; cbn; [|tauto]. split; [|intros [?|?|?|?|?]; cbn; tauto]. intros [x|m|] _; cbn; try tauto. split; [discriminate|tauto].
  - unfold hydrate_unit_type_registry. destruct injected; cbn; [|tauto]. split; [|intros [?|?|?|?|?]; cbn; tauto]. intros [x|m|] _; cbn; try tauto. split; [discriminate|tauto].
Qed.
Lemma run_pinv s s' : run s s' -> pinv s -> pinv s'.
Proof.
  intros R I. induction R as [s|s s1 s2 R IH St]; auto. specialize (IH I). destruct St as [s1 s2 _ G|c m ts q _]; [eapply gstep_pinv; eauto|].
  destruct IH as (HT & HO & HN).
  assert (KM : forall k, known (State c m ts) k -> known (State c m (ts ++ [(Some q, TRun (program q))])) k).
  { intros k [v [A|(t & A & B)]]; exists v; [now left|right; exists t; split; auto; cbn; apply in_or_app; now left]. }
  split; [|split].
  - cbn [threads]. intros q0 g A. apply in_app_or in A as [A|[A|[]]].
    + eapply gpays_mono; [exact KM|]. now apply HT.
    + injection A as <- <-. apply pays_program.
  - intros k x [A|(t & A & B)].
    + destruct (HO k x (or_introl A)) as (q0 & r & O & E & An & X). exists q0, r. repeat split; auto. unfold answered. cbn. apply in_or_app. now left.
    + cbn [threads] in A. apply in_app_or in A as [A|[A|[]]]; [|subst t; contradiction].
      destruct (HO k x (or_intror (ex_intro _ t (conj A B)))) as (q0 & r & O & E & An & X). exists q0, r. repeat split; auto. unfold answered. cbn. apply in_or_app. now left.
  - cbn [threads]. intros g A. apply in_app_or in A as [A|[A|[]]]; [now apply HN|discriminate].
Qed.
Lemma pinv_initial : pinv (initial []).
Proof. split; [|split]; cbn; [contradiction| |contradiction]. intros k x [[]|(t & [] & _)]. Qed.

(** ** At rest *)
Definition idle (g : goroutine) : Prop :=
  match g with TRun (Answer _) | WEnd => True | TRun (Compute X P k) => forall x, ~ P x | _ => False end.
Lemma rest_idle s : run (initial []) s -> separate (requests s) -> at_rest s -> up s ->
  inv sv false injected (legal sv (requests s)) s /\ Forall (fun t => idle (snd t)) (threads s).
Proof.
  intros R Sp Re Up.
  assert (Hi : inv sv false injected (legal sv (requests s)) s).
  { eapply run_inv; eauto. - intros q Hq. now apply wok_program. - split; [contradiction|constructor]. }
  split; auto.
  assert (Hl : linv sv (legal sv (requests s)) s).
  { apply (run_linv sv false injected _ (initial [])); auto.
    - intros q Hq. split; [now apply wok_program|now apply safe_program].
    - split; [contradiction|constructor].
    - split; [constructor|]. intros l. cbn. repeat split; auto. }
  apply Forall_forall. intros [q g] It. cbn [snd].
  destruct (finished_dec g) as [[[r ->]|[-> | ->]]|Hn]; cbn; auto.
  { unfold up in Up. rewrite Forall_forall in Up. now apply (Up _ It). }
  assert (Hv : ~ (lives sv (q, g) \/ ~ computing g)).
  { intros Hv. destruct (progress _ _ _ _ _ Hi Hl) as [s'' Hg]; [exists (q, g); auto|]. destruct (Re _ Up Hg). }
  destruct g as [[r|l get key hit miss|X P k|l key v k|]| | | | | | | |]; cbn; auto;
    try solve [apply Hv; right; intros (X0 & P0 & k0 & E0); discriminate E0].
  intros x Px. destruct s as [c m ts]. cbn [threads] in It. apply in_split in It as (a & b & ->).
  apply (Re _ Up (gs_compute _ _ _ _ c m a q X P k x b Px)).
Qed.
Lemma idle_stored s k : Forall (fun t => idle (snd t)) (threads s) -> known s k -> exists v, mget String.eqb k (stored s) = Some v.
Proof.
  intros Id [v [I|([q g] & I & W)]]; [eapply In_mget_some; eauto|]. rewrite Forall_forall in Id. specialize (Id _ I). destruct g; cbn in *; tauto.
Qed.

(** ** What is in the cache of an idle server stays there *)
Section Frozen.
Variable c0 : list (string * value).
Notation at0 k := (mget String.eqb k c0).
Variable L : string -> value -> Prop.
Hypothesis L_known : forall k v v0, at0 k = Some v0 -> (L k v <-> v = v0).

Fixpoint keeps (R : res value -> Prop) (p : prog) : Prop :=
  match p with
  | Answer r => R r
  | Lookup _ get key hit miss =>
      (forall v, L key v -> match hit v with Some p' => keeps R p' | None => R Panic end) /\
      (get = false \/ at0 key = None -> keeps R miss)
  | Compute X P k => forall x, P x -> keeps R (k x)
  | Spawn _ key v k => L key v /\ keeps R k
  | Crash => True
  end.
Definition gkeeps (R : res value -> Prop) (g : goroutine) : Prop :=
  match g with
  | TRun p | TLeave _ p => keeps R p
  | TWait l get key hit miss | TRead l get key hit miss => keeps R (Lookup l get key hit miss)
  | WStart _ k v | WWait _ k v | WIn _ k v => L k v
  | _ => True
  end.
Variable R : request -> res value -> Prop.
Definition Rof (q : option request) : res value -> Prop := match q with Some q => R q | None => fun _ => True end.
Definition finv (s : state) : Prop :=
  (forall k v, mget String.eqb k (stored s) = Some v -> L k v) /\
  (forall k, at0 k <> None -> mget String.eqb k (stored s) <> None) /\
  Forall (fun t => gkeeps (Rof (fst t)) (snd t)) (threads s).

Lemma gstep_finv (s s' : state) : gstep s s' -> finv s -> finv s'.
Proof.
  intros G (H1 & H2 & H3).
  destruct G; unfold finv in *; cbn [stored threads] in *; apply Forall_split in H3 as (Ha & Hx & Hb); cbn [fst snd] in Hx;
    (split; [try exact H1|split; [try exact H2|]]); try (apply Forall_split; split; [auto|split; [cbn [fst snd]|auto]]); auto.
  - cbn in *. auto.
  - cbn in *. tauto.
  - apply Forall_app. split; auto. constructor; auto. cbn in *. tauto.
  - cbn in Hx. destruct Hx as [X1 X2]. unfold after_get. destruct (if get then mget String.eqb key c else None) as [v|] eqn:E.
    + assert (Lv : L key v) by (destruct get; [now apply H1|discriminate]). specialize (X1 v Lv). destruct (hit v); exact X1.
    + cbn. apply X2. destruct get; [right|now left]. destruct (at0 key) eqn:E0; auto. exfalso. apply (H2 key); [congruence|exact E].
  - intros k0 v0. rewrite mget_mset. destruct (String.eqb_spec key k0) as [->|]; [|apply H1]. intros [= <-]. exact Hx.
  - intros k0 Hk. rewrite mget_mset. destruct (String.eqb_spec key k0); [discriminate|now apply H2].
  - exact I.
  - rewrite Forall_map. eapply Forall_impl; [|exact Ha]. intros [q0 g0]. cbn. destruct g0; cbn; auto. destruct (lockid_eqb _ _); cbn; auto.
  - rewrite Forall_map. eapply Forall_impl; [|exact Hb]. intros [q0 g0]. cbn. destruct g0; cbn; auto. destruct (lockid_eqb _ _); cbn; auto.
Qed.
Lemma run_finv s s' : (forall q, In q (requests s') -> keeps (R q) (program q)) -> run s s' -> finv s -> finv s'.
Proof.
  intros Hq Hr. induction Hr as [s|s s1 s2 Hr IH Hs]; auto. intros Hi.
  assert (H1 : finv s1). { apply IH; auto. intros q Hin. apply Hq. now apply (step_requests _ _ _ _ _ Hs). }
  destruct Hs as [s' s'' _ Hs|c m ts q _]; [eapply gstep_finv; eauto|].
  destruct H1 as (A & B & C). split; [exact A|split; [exact B|]]. cbn. apply Forall_app. split; auto. constructor; auto. cbn.
  apply Hq. unfold requests. cbn. rewrite flat_map_app. apply in_or_app. right. now left.
Qed.
Lemma finv_answered s q r : finv s -> answered s q r -> R q r.
Proof. intros (_ & _ & C) A. rewrite Forall_forall in C. exact (C _ A). Qed.
End Frozen.

(** ** The values that may be added, and the answers that may be given *)
Section Later.
Variable qs : list request.
Hypothesis Sep : separate qs.
Variable c0 : list (string * value).
Notation at0 k := (mget String.eqb k c0).
Hypothesis typed : forall q a v, In q qs -> In a (resources q) -> at0 (resource_key a) = Some v -> holds sv a v.
Variable old : request -> res value -> Prop.

Definition fits (a : resource) (v : value) : Prop :=
  match a with
  | ResFolder id => exists ho, v = VHyd ho
  | ResCatalog id => exists x, v = VBytes x /\ forall h, at0 id = Some (VHyd (Some h)) -> shown sv h (RCatalog id) (Ok (VBytes x))
  | ResRender id slug => exists x, v = VBytes x /\ forall h, at0 id = Some (VHyd (Some h)) -> shown sv h (RRender id slug) (Ok (VBytes x))
  | ResFact id n c => exists x, v = VBytes x /\ forall h, at0 id = Some (VHyd (Some h)) -> shown sv h (RFact id n c) (Ok (VBytes x))
  | _ => True
  end.
Definition Lq (key : string) (v : value) : Prop :=
  match at0 key with
  | Some v0 => v = v0
  | None => forall q a, In q qs -> In a (resources q) -> resource_key a = key -> fits a v
  end.
Definition fresh (q : request) (r : res value) : Prop :=
  (forall x, at0 (page q) = Some (VBytes x) -> match q with RRender _ _ => True | _ => exists ho, at0 (fid q) = Some (VHyd ho) end -> r = Ok (VBytes x)) /\
  (at0 (page q) = None -> forall h, at0 (fid q) = Some (VHyd (Some h)) -> shown sv h q r).
Definition later (q : request) (r : res value) : Prop := of_folder q -> old q r \/ fresh q r.

Lemma Lq_known k v v0 : at0 k = Some v0 -> (Lq k v <-> v = v0).
Proof. unfold Lq. intros ->. tauto. Qed.
Lemma Lq_page q v : In q qs -> of_folder q -> Lq (page q) v ->
  exists x, v = VBytes x /\ (at0 (page q) = Some (VBytes x) \/ at0 (page q) = None /\ forall h, at0 (fid q) = Some (VHyd (Some h)) -> shown sv h q (Ok (VBytes x))).
Proof.
  intros I O. unfold Lq. destruct (at0 (page q)) as [v0|] eqn:E.
  - intros ->. pose proof (typed q (page_res q) v0 I (page_in q O)) as T. rewrite (page_key q O) in T. specialize (T E).
    destruct q; cbn in O, T; try contradiction; destruct T as (h & _ & T); apply kept_bytes in T as [x ->]; exists x; auto.
  - intros HL. specialize (HL q (page_res q) I (page_in q O) (page_key q O)).
    destruct q; cbn in O, HL; try contradiction; destruct HL as (x & -> & X); exists x; split; auto.
Qed.
Lemma Lq_folder q v : In q qs -> of_folder q -> Lq (fid q) v -> exists ho, v = VHyd ho /\ (forall v0, at0 (fid q) = Some v0 -> v0 = VHyd ho).
Proof.
  intros I O. unfold Lq. destruct (at0 (fid q)) as [v0|] eqn:E.
  - intros ->. pose proof (typed q (ResFolder (fid q)) v0 I (fid_in q O) E) as T. cbn in T. destruct T as [(h & -> & _)|[-> _]]; eexists; split; eauto; now intros v0 [= <-].
  - intros HL. destruct (HL q (ResFolder (fid q)) I (fid_in q O) eq_refl) as [ho ->]. exists ho. split; auto. discriminate.
Qed.
Lemma Lq_add q a v : In q qs -> In a (resources q) -> at0 (resource_key a) = None -> fits a v -> Lq (resource_key a) v.
Proof. intros I A E X. unfold Lq. rewrite E. intros q' a' I' A' K. now rewrite (Sep q' q a' a I' I A' A K). Qed.
Lemma Lq_add_page q x : In q qs -> of_folder q -> at0 (page q) = None ->
  (forall h, at0 (fid q) = Some (VHyd (Some h)) -> shown sv h q (Ok (VBytes x))) -> Lq (page q) (VBytes x).
Proof.
  intros I O E X. rewrite <- (page_key q O) in *. apply (Lq_add q); auto using page_in. destruct q; cbn in *; try contradiction; eauto.
Qed.

Lemma keeps_and_save q (P : res (option string) -> Prop) D : In q qs -> of_folder q -> at0 (page q) = None ->
  (forall h a, at0 (fid q) = Some (VHyd (Some h)) -> P a -> told sv h q a) ->
  keeps c0 Lq (later q) (and_save false (page q) P D).
Proof.
  intros I O E X. unfold and_save, Call. cbn [keeps]. intros [[b|m|]|] Pa; cbn [save keeps]; auto.
  - split.
    + apply Lq_add_page; auto. intros h Eh. exists (Ok b). split; [now apply X|now left].
    + intros _. right. split; [congruence|]. intros _ h Eh. exists (Ok b). split; [now apply X|now left].
  - split.
    + apply Lq_add_page; auto. intros h Eh. exists (Err m). split; [now apply X|right; eauto].
    + intros _. right. split; [congruence|]. intros _ h Eh. exists (Err m). split; [now apply X|now left].
  - intros _. right. split; [congruence|]. intros _ h Eh. exists Panic. split; [now apply X|now left].
Qed.
Lemma keeps_page q miss : In q qs -> of_folder q ->
  (at0 (page q) = None -> keeps c0 Lq (later q) miss) -> keeps c0 Lq (later q) (Lookup LApp true (page q) as_bytes miss).
Proof.
  intros I O M. cbn [keeps]. split.
  - intros v Lv. destruct (Lq_page q v I O Lv) as (x & -> & [E|[E X]]); cbn [as_bytes keeps]; intros _; right; split.
    + intros x0 E0 _. congruence.
    + congruence.
    + congruence.
    + auto.
  - intros [[=]|E]. auto.
Qed.
Lemma keeps_with q k : In q qs -> of_folder q ->
  match q with RRender _ _ => at0 (page q) = None | _ => True end ->
  (forall ho, (forall v0, at0 (fid q) = Some v0 -> v0 = VHyd ho) -> keeps c0 Lq (later q) (k ho)) ->
  keeps c0 Lq (later q) (with_hydratable sv false (fid q) k).
Proof.
  intros I O E HK. unfold with_hydratable. cbn [keeps negb]. split.
  - intros v Lv. destruct (Lq_folder q v I O Lv) as (ho & -> & X). cbn. now apply HK.
  - intros [[=]|E0].
    assert (An : forall r, later q r).
    { intros r _. right. split; [|congruence]. intros x Ex X. destruct q; cbn in *; try contradiction; try congruence; destruct X; congruence. }
    intros [f|m|] _; cbn [keeps]; auto. unfold Call. cbn [keeps]. intros [[h|m|]|] _; cbn [save keeps]; auto.
    + split; [apply (Lq_add q (ResFolder (fid q))); auto using fid_in; cbn; eauto|]. apply HK. intros v0 E1. congruence.
    + split; [apply (Lq_add q (ResFolder (fid q))); auto using fid_in; cbn; eauto|auto].
Qed.
Lemma keeps_program q : In q qs -> keeps c0 Lq (later q) (program q).
Proof.
  intros I. destruct q as [id|id slug|id n c|url| |]; cbn [CacheModel.program].
  - apply (keeps_with (RCatalog id)); try exact Logic.I; auto. intros ho X. apply (keeps_page (RCatalog id)); try exact Logic.I; auto.
    intros E. apply (keeps_and_save (RCatalog id)); try exact Logic.I; auto. intros h a Eh Pa. apply X in Eh. injection Eh as <-. exact Pa.
  - apply (keeps_page (RRender id slug)); try exact Logic.I; auto. intros E.
    apply (keeps_with (RRender id slug)); try exact Logic.I; auto. intros ho X. destruct ho as [h|].
    + destruct (_ && _) eqn:B.
      * assert (ND : names_document sv slug h) by (now apply names_document_iff).
        assert (Td : forall d, doc_bytes sv (folder_of sv h) = Some d -> forall h', at0 id = Some (VHyd (Some h')) -> shown sv h' (RRender id slug) (Ok (VBytes (Some d)))).
        { intros d Ed h' Eh. apply X in Eh. injection Eh as ->. exists (Ok (Some d)). split; [|now left]. left. split; auto. now rewrite Ed. }
        destruct (doc_bytes sv (folder_of sv h)) as [d|] eqn:Ed; cbn [save keeps].
        -- split; [apply (Lq_add_page (RRender id slug)); try exact Logic.I; auto|]. intros _. right. split; [cbn in *; congruence|]. intros _ h' Eh. now apply Td.
        -- intros _. right. split; [cbn in *; congruence|]. intros _ h' Eh. apply X in Eh. injection Eh as ->. exists Panic. split; [|now left]. left. split; auto. now rewrite Ed.
      * apply (keeps_and_save (RRender id slug)); try exact Logic.I; auto. intros h' a Eh Pa. apply X in Eh. injection Eh as ->. right. split; auto.
        intros ND. apply names_document_iff in ND. congruence.
    + cbn. intros _. right. split; [cbn in *; congruence|]. intros _ h Eh. apply X in Eh. discriminate.
  - apply (keeps_with (RFact id n c)); try exact Logic.I; auto. intros ho X. apply (keeps_page (RFact id n c)); try exact Logic.I; auto.
    intros E. apply (keeps_and_save (RFact id n c)); try exact Logic.I; auto. intros h a Eh Pa. apply X in Eh. injection Eh as <-. exact Pa.
  - assert (A : forall r, later (RSchema url) r) by (intros r []).
    unfold hydrate_global_schema. destruct injected; cbn [keeps]; auto. split; [intros [?|?|?|?|?] _; cbn; auto|]. intros [[=]|E] [x|m|] _; cbn; auto.
    split; auto. apply (Lq_add (RSchema url) (ResSchema url)); cbn; auto.
  - assert (A : forall r, later RNames r) by (intros r []).
    unfold hydrate_entity_names. destruct injected; cbn [keeps]; auto. split; [intros [?|?|?|?|?] _; cbn; auto|]. intros [[=]|E] [x|m|] _; cbn; auto.
    split; auto. apply (Lq_add RNames ResNames); cbn; auto.
  - assert (A : forall r, later RUtr r) by (intros r []).
    unfold hydrate_unit_type_registry. destruct injected; cbn [keeps]; auto. split; [intros [?|?|?|?|?] _; cbn; auto|]. intros [[=]|E] [x|m|] _; cbn; auto.
    split; auto. apply (Lq_add RUtr ResUtr); cbn; auto.
Qed.
End Later.

(** what an idle server answers later *)
Lemma answers_later s s' : run (initial []) s -> at_rest s -> up s -> run s s' -> separate (requests s') ->
  forall q r, of_folder q -> answered s' q r -> answered s q r \/ fresh (stored s) q r.
Proof.
  intros R0 Re Up R1 Sp q r O A.
  assert (Sp0 : separate (requests s)).
  { intros q1 q2 a b I1 I2. apply Sp; eapply run_requests; eauto. }
  destruct (rest_idle s R0 Sp0 Re Up) as ((Hc & _) & Id).
  set (L := Lq (requests s') (stored s)).
  assert (TY : forall q a v, In q (requests s') -> In a (resources q) -> mget String.eqb (resource_key a) (stored s) = Some v -> holds sv a v).
  { intros q1 a v I1 Ia E. apply get_In in E. destruct (Hc _ _ E) as (q2 & a2 & I2 & Ia2 & K & Ho).
    rewrite (Sp q1 q2 a a2 I1 (run_requests _ _ _ _ _ R1 _ I2) Ia Ia2 (eq_sym K)). exact Ho. }
  assert (FI : finv (stored s) L (later (stored s) (answered s)) s).
  { split; [|split].
    - intros k v E. unfold L, Lq. now rewrite E.
    - auto.
    - apply Forall_forall. intros [q1 g] I1. rewrite Forall_forall in Id. specialize (Id _ I1). cbn [fst snd] in *.
      destruct g as [[r1|l get key hit miss|X P k|l key v k|]| | | | | | | |]; cbn in *; try contradiction; auto.
      + destruct q1 as [q1|]; cbn; auto. intros _. now left.
      + intros x Px. destruct (Id x Px). }
  assert (FI' : finv (stored s) L (later (stored s) (answered s)) s').
  { eapply run_finv; eauto. - intros q1 I1. now apply keeps_program. }
  exact (finv_answered _ _ _ s' q r FI' A O).
Qed.

(** ** One request about a folder: what it answers and what it leaves behind are of one load *)
Lemma run_prefix s s' : run s s' -> exists l, requests s' = (requests s ++ l)%list.
Proof.
  induction 1 as [s|s s1 s2 R [l IH] St]; [exists []; now rewrite app_nil_r|].
  destruct St as [s1 s2 _ G|c m ts q _].
  - rewrite (gstep_requests _ _ G). eauto.
  - exists (l ++ [q])%list. rewrite app_assoc, <- IH. unfold requests. cbn. now rewrite flat_map_app.
Qed.
Section One.
Variable qs : list request.
Hypothesis Sep : separate qs.
Variable q0 : request.
Hypothesis O0 : of_folder q0.
Hypothesis In0 : In q0 qs.
Notation id := (fid q0).

Definition Lk (o : option (option H)) (key : string) (v : value) : Prop :=
  (key = id -> exists ho, o = Some ho /\ v = VHyd ho) /\
  (key = page q0 -> exists h x, o = Some (Some h) /\ v = VBytes x /\ shown sv h q0 (Ok (VBytes x))).
Fixpoint linked (o : option (option H)) (p : prog) : Prop :=
  match p with
  | Answer r => forall b, r = Ok (VBytes b) -> exists h, o = Some (Some h) /\ shown sv h q0 r
  | Lookup _ get key hit miss =>
      linked o miss /\ forall v, Lk o key v -> match hit v with Some p' => linked o p' | None => True end
  | Compute X P k => forall x, P x -> linked o (k x)
  | Spawn _ key v k =>
      (key = id /\ o = None /\ exists ho, v = VHyd ho /\ linked (Some ho) k) \/ (key <> id /\ Lk o key v /\ linked o k)
  | Crash => True
  end.
Fixpoint away (p : prog) : Prop :=
  match p with
  | Answer r => True
  | Lookup _ get key hit miss => away miss /\ forall v, match hit v with Some p' => away p' | None => True end
  | Compute X P k => forall x, P x -> away (k x)
  | Spawn _ key v k => key <> id /\ key <> page q0 /\ away k
  | Crash => True
  end.
Definition glinked (o : option (option H)) (g : goroutine) : Prop :=
  match g with
  | TRun p | TLeave _ p => linked o p
  | TWait l get key hit miss | TRead l get key hit miss => linked o (Lookup l get key hit miss)
  | _ => True
  end.
Definition gaway (g : goroutine) : Prop :=
  match g with
  | TRun p | TLeave _ p => away p
  | TWait l get key hit miss | TRead l get key hit miss => away (Lookup l get key hit miss)
  | _ => True
  end.
Definition tl (o : option (option H)) (t : thread) : Prop :=
  match fst t with
  | Some q => (about id q -> glinked o (snd t)) /\ (~ about id q -> gaway (snd t))
  | None => writer (snd t)
  end.
Definition oinv (o : option (option H)) (s : state) : Prop :=
  (forall k v, noted s k v -> Lk o k v) /\ Forall (tl o) (threads s) /\
  (forall ho, o = Some ho -> known s id /\ exists q, In q (requests s) /\ about id q).

Lemma page_not_id q : In q qs -> of_folder q -> page q <> id.
Proof.
  intros I O E. pose proof (Sep q q0 (page_res q) (ResFolder id) I In0 (page_in q O) (fid_in q0 O0)) as X.
  rewrite (page_key q O) in X. specialize (X E). destruct q; cbn in *; try contradiction; discriminate.
Qed.
Lemma linked_and_save h (P : res (option string) -> Prop) D : (forall a, P a -> told sv h q0 a) ->
  linked (Some (Some h)) (and_save false (page q0) P D).
Proof.
  intros X. unfold and_save, Call. cbn [linked]. intros [[b|m|]|] Pa; cbn [save linked]; auto; try discriminate.
  - assert (Sh : shown sv h q0 (Ok (VBytes b))) by (exists (Ok b); split; [now apply X|now left]).
    right. repeat split.
    + now apply page_not_id.
    + intros E. now apply page_not_id in E.
    + intros _. exists h, b. auto.
    + intros b' [= <-]. exists h. auto.
  - assert (Sh : shown sv h q0 (Ok (VBytes None))) by (exists (Err m); split; [now apply X|right; eauto]).
    right. repeat split.
    + now apply page_not_id.
    + intros E. now apply page_not_id in E.
    + intros _. exists h, None. auto.
    + discriminate.
Qed.
Lemma linked_page h miss : linked (Some (Some h)) miss -> linked (Some (Some h)) (Lookup LApp true (page q0) as_bytes miss).
Proof.
  intros M. cbn [linked]. split; auto. intros v [_ Lv]. destruct (Lv eq_refl) as (h' & x & [= <-] & -> & Sh). cbn. intros b [= <-]. eauto.
Qed.
Lemma linked_with k : (forall h, linked (Some (Some h)) (k (Some h))) -> linked None (with_hydratable sv false id k).
Proof.
  intros HK. unfold with_hydratable. cbn [linked negb]. split.
  - intros [f|m|] _; cbn [linked]; try discriminate. unfold Call. cbn [linked]. intros [[h|m|]|] _; cbn [save linked]; auto; try discriminate.
    + left. repeat split; auto. exists (Some h). auto.
    + left. repeat split; auto. exists None. split; auto. discriminate.
  - intros v [Lv _]. destruct (Lv eq_refl) as (ho & [=] & _).
Qed.
Lemma linked_program : linked None (program q0).
Proof.
  destruct q0 as [i|i slug|i n c|url| |] eqn:Eq; try contradiction; cbn [CacheModel.program]; rewrite <- Eq in *.
  - replace i with id by (now rewrite Eq). apply linked_with. intros h.
    replace (id ++ "/") with (page q0) by (now rewrite Eq). apply linked_page. apply linked_and_save. intros a Pa. rewrite Eq. exact Pa.
  - replace (marshal_renderable sv false i slug) with (marshal_renderable sv false id slug) by (now rewrite Eq).
    unfold marshal_renderable. replace (id ++ "/" ++ slug) with (page q0) by (now rewrite Eq). cbn [linked negb]. split.
    + apply linked_with. intros h. destruct (_ && _) eqn:B.
      * assert (ND : names_document sv slug h) by (now apply names_document_iff).
        destruct (doc_bytes sv (folder_of sv h)) as [d|] eqn:Ed; cbn [save linked]; [|discriminate].
        assert (Sh : shown sv h q0 (Ok (VBytes (Some d)))).
        { exists (Ok (Some d)). split; [|now left]. rewrite Eq. left. split; auto. now rewrite Ed. }
        right. repeat split.
        -- now apply page_not_id.
        -- intros E. now apply page_not_id in E.
        -- intros _. exists h, (Some d). auto.
        -- intros b [= <-]. eauto.
      * apply linked_and_save. intros a Pa. rewrite Eq. right. split; auto. intros ND. apply names_document_iff in ND. congruence.
    + intros v [_ Lv]. destruct (Lv eq_refl) as (h' & x & [=] & _).
  - replace (marshal_expressable sv false i n c) with (marshal_expressable sv false id n c) by (now rewrite Eq).
    unfold marshal_expressable. replace (fact_key id n c) with (page q0) by (now rewrite Eq). apply linked_with. intros h. apply linked_page. apply linked_and_save. intros a Pa. rewrite Eq. exact Pa.
Qed.

Lemma away_key q a : In q qs -> In a (resources q) -> ~ about id q -> resource_key a <> id /\ resource_key a <> page q0.
Proof.
  intros I A Na. split; intros E.
  - pose proof (Sep q q0 a (ResFolder id) I In0 A (fid_in q0 O0) E) as ->. apply Na. destruct q; cbn in *; intuition congruence.
  - rewrite <- (page_key q0 O0) in E. pose proof (Sep q q0 a (page_res q0) I In0 A (page_in q0 O0) E) as ->.
    apply Na. destruct q, q0; cbn in *; intuition congruence.
Qed.
Lemma away_and_save key P D : key <> id /\ key <> page q0 -> away (and_save false key P D).
Proof. intros K. unfold and_save, Call. cbn [away]. intros [[b|m|]|] _; cbn [save away]; tauto. Qed.
Lemma away_page key miss : away miss -> away (Lookup LApp true key as_bytes miss).
Proof. intros M. cbn [away]. split; auto. intros [h|b|x|n|u]; cbn; auto. Qed.
Lemma away_with i k : i <> id /\ i <> page q0 -> (forall h, away (k h)) -> away (with_hydratable sv false i k).
Proof.
  intros K HK. unfold with_hydratable. cbn [away negb]. split.
  - intros [f|m|] _; cbn [away]; auto. unfold Call. cbn [away]. intros [[h|m|]|] _; cbn [save away]; auto; destruct K; auto.
  - intros [h|b|x|n|u]; cbn; auto.
Qed.
Lemma away_program q : In q qs -> ~ about id q -> away (program q).
Proof.
  intros I Na. pose proof (fun a A => away_key q a I A Na) as K.
  destruct q as [i|i slug|i n c|url| |]; cbn [CacheModel.program].
  - apply away_with; [apply (K (ResFolder i)); cbn; auto|]. intros h. apply away_page, away_and_save. apply (K (ResCatalog i)); cbn; auto.
  - apply away_page, away_with; [apply (K (ResFolder i)); cbn; auto|]. pose proof (K (ResRender i slug) (or_introl eq_refl)) as K1. cbn [resource_key] in K1.
    intros [h|]; [|exact Logic.I]. destruct (_ && _); [|now apply away_and_save]. destruct (doc_bytes sv _); cbn [save away]; tauto.
  - apply away_with; [apply (K (ResFolder i)); cbn; auto|]. intros h. apply away_page, away_and_save. apply (K (ResFact i n c)); cbn; auto.
  - pose proof (K (ResSchema url) (or_introl eq_refl)) as K1. cbn [resource_key] in K1. unfold hydrate_global_schema. destruct injected; cbn [away]; auto. split; [intros [x|m|] _; cbn; tauto|intros [?|?|?|?|?]; cbn; auto].
  - pose proof (K ResNames (or_introl eq_refl)) as K1. cbn [resource_key] in K1. unfold hydrate_entity_names. destruct injected; cbn [away]; auto. split; [intros [x|m|] _; cbn; tauto|intros [?|?|?|?|?]; cbn; auto].
  - pose proof (K ResUtr (or_introl eq_refl)) as K1. cbn [resource_key] in K1. unfold hydrate_unit_type_registry. destruct injected; cbn [away]; auto. split; [intros [x|m|] _; cbn; tauto|intros [?|?|?|?|?]; cbn; auto].
Qed.

Variable keep : request -> bool.
Hypothesis keep_about : forall q, keep q = true <-> about id q.
Definition single (s : state) : Prop := filter keep (requests s) = [] \/ filter keep (requests s) = [q0].
Lemma single_alone s a q g b : single s -> threads s = (a ++ (Some q, g) :: b)%list -> about id q ->
  q = q0 /\ forall q' g', In (Some q', g') (a ++ b)%list -> ~ about id q'.
Proof.
  intros Si E A. apply keep_about in A. unfold single, requests in Si. rewrite E, flat_map_app in Si. cbn [flat_map fst] in Si.
  rewrite filter_app in Si. cbn [app filter] in Si. rewrite A in Si.
  set (f := fun t : thread => match fst t with Some q => [q] | None => [] end) in *.
  destruct Si as [Si|Si]; [destruct (filter keep (flat_map f a)); discriminate|].
  assert (Z : filter keep (flat_map f a) = [] /\ q = q0 /\ filter keep (flat_map f b) = []).
  { destruct (filter keep (flat_map f a)) as [|x l]; cbn in Si; [injection Si as -> ->; auto|]. injection Si as -> Si. destruct l; discriminate. }
  destruct Z as (Z1 & -> & Z2). split; auto. intros q' g' I A'. apply keep_about in A'.
  assert (N0 : forall l, filter keep (flat_map f l) = [] -> ~ In (Some q', g') l).
  { intros l El Il. assert (X : In q' (filter keep (flat_map f l))) by (apply filter_In; split; auto; apply in_flat_map; exists (Some q', g'); cbn; auto). rewrite El in X. contradiction. }
  apply in_app_or in I as [I|I]; [now apply (N0 a)|now apply (N0 b)].
Qed.
Lemma Lk_none o k v : Lk None k v -> Lk o k v.
Proof. intros [A B]. split; intros E; [destruct (A E) as (? & [=] & _)|destruct (B E) as (? & ? & [=] & _)]. Qed.
Lemma tl_other o o' t : (forall q, fst t = Some q -> ~ about id q) -> tl o t -> tl o' t.
Proof. unfold tl. destruct (fst t) as [q|]; auto. intros Na [_ A]. split; auto. intros B. now apply Na in B. Qed.
Lemma about_dec q : about id q \/ ~ about id q.
Proof. destruct (keep q) eqn:E; [left; now apply keep_about|right; intros A; apply keep_about in A; congruence]. Qed.
Lemma tl_wake o l t : tl o t -> tl o (fst t, wake l (snd t)).
Proof. destruct t as [[q|] g]; unfold tl; cbn [fst snd]; destruct g; cbn [wake]; auto; destruct (lockid_eqb _ _); auto. Qed.

Lemma gstep_oinv o s s' : gstep s s' -> single s -> oinv o s -> exists o', oinv o' s'.
Proof.
  intros G Si (HN & HT & HK).
  assert (SAME : (forall k v, noted s' k v -> noted s k v) -> Forall (tl o) (threads s') -> exists o', oinv o' s').
  { intros M T. exists o. split; [|split; [exact T|]].
    - intros k v I. apply HN. auto.
    - intros ho E. destruct (HK ho E) as [K1 K2]. split; [eapply gstep_known; eauto|]. now rewrite (gstep_requests _ _ G). }
  assert (NO : List.length (threads s') = List.length (threads s) -> Forall (tl o) (threads s') -> exists o', oinv o' s').
  { intros EL. apply SAME. intros k v I0. destruct (gstep_noted _ _ _ _ G I0) as [|(c1&m1&a1&q1&l1&p1&b1&E1&E2)]; [assumption|exfalso].
    subst s s'. cbn [threads] in EL. rewrite !app_length in EL. cbn in EL. rewrite app_length in EL. cbn in EL. lia. }
  destruct G; cbn [threads stored] in *.
  2: { (* a save *)
    pose proof HT as HT'. apply Forall_split in HT' as (Ha & Hx & Hb).
    destruct q as [q|]; [|contradiction]. unfold tl in Hx. cbn [fst snd] in Hx.
    assert (NK : forall k0 v0, noted (State c m (a ++ (Some q, TRun k) :: b ++ [(None, WStart l key v)])) k0 v0 ->
              noted (State c m (a ++ (Some q, TRun (Spawn l key v k)) :: b)) k0 v0 \/ (k0 = key /\ v0 = v)).
    { intros k0 v0 [I|([q1 g1] & I & Wr)]; [left; left; exact I|]. cbn [threads] in I.
      apply in_app_or in I as [I|[I|I]]; [left; right; exists (q1, g1); split; [cbn; apply in_or_app; now left|exact Wr]|injection I as <- <-; contradiction|].
      apply in_app_or in I as [I|[I|[]]]; [left; right; exists (q1, g1); split; [cbn; apply in_or_app; right; now right|exact Wr]|].
      injection I as <- <-. cbn in Wr. destruct Wr as [-> ->]. now right. }
    destruct (about_dec q) as [A|A].
    - destruct Hx as [Hx _]. specialize (Hx A). cbn in Hx.
      destruct (single_alone _ a q _ b Si eq_refl A) as [-> Al].
      destruct Hx as [(-> & -> & ho & -> & Hk)|(Nk & Lv & Hk)].
      + exists (Some ho). split; [|split].
        * intros k0 v0 I. destruct (NK _ _ I) as [I0|[-> ->]]; [apply Lk_none, HN, I0|]. split; [eauto|].
          intros E. symmetry in E. now apply page_not_id in E.
        * cbn [threads]. apply Forall_split. split; [|split].
          -- apply Forall_forall. intros t It. rewrite Forall_forall in Ha. apply (tl_other None); auto. intros q' Eq'. destruct t as [q1 g1]. cbn in Eq'. subst q1. apply (Al q' g1). apply in_or_app. now left.
          -- split; auto. intros Na. now apply Na in A.
          -- apply Forall_app. split; [|constructor; auto; exact I].
             apply Forall_forall. intros t It. rewrite Forall_forall in Hb. apply (tl_other None); auto. intros q' Eq'. destruct t as [q1 g1]. cbn in Eq'. subst q1. apply (Al q' g1). apply in_or_app. now right.
        * intros ho' _. split; [|exists q0; split; auto; unfold requests; cbn; rewrite flat_map_app; apply in_or_app; right; now left].
          exists (VHyd ho). right. exists (None, WStart l id (VHyd ho)). split; [cbn; apply in_or_app; right; right; apply in_or_app; right; now left|cbn; auto].
      + exists o. split; [|split].
        * intros k0 v0 I. destruct (NK _ _ I) as [I0|[-> ->]]; [apply HN, I0|exact Lv].
        * cbn [threads]. apply Forall_split. split; [exact Ha|split].
          -- split; auto. intros Na. now apply Na in A.
          -- apply Forall_app. split; [exact Hb|constructor; auto; exact I].
        * intros ho' E. destruct (HK ho' E) as [K1 K2]. split; [eapply gstep_known; [constructor|exact K1]|].
          erewrite gstep_requests; [exact K2|constructor].
    - destruct Hx as [_ Hx]. specialize (Hx A). cbn in Hx. exists o. split; [|split].
      * intros k0 v0 I. destruct (NK _ _ I) as [I0|[-> ->]]; [apply HN, I0|]. split; intros E; tauto.
      * cbn [threads]. apply Forall_split. split; [exact Ha|split].
        -- split; [intros B; now apply A in B|]. intros _. cbn. tauto.
        -- apply Forall_app. split; [exact Hb|constructor; auto; exact I].
      * intros ho' E. destruct (HK ho' E) as [K1 K2]. split; [eapply gstep_known; [constructor|exact K1]|].
          erewrite gstep_requests; [exact K2|constructor]. }
  all: apply NO; [rewrite !app_length; cbn; rewrite ?map_length; reflexivity|].
  all: apply Forall_split in HT as (Ha & Hx & Hb); apply Forall_split.
  all: try (split; [exact Ha|split; [|exact Hb]]).
  all: try (unfold tl in *; cbn [fst snd] in *; destruct q as [q|]; [|try contradiction; exact I]).
  - destruct Hx as [X1 X2]. split; intros A; [specialize (X1 A)|specialize (X2 A)]; cbn in *; auto.
  - exact Hx.
  - exact Hx.
  - unfold after_get. destruct (if get then mget String.eqb key c else None) as [v|] eqn:E.
    + assert (Ev : In (key, v) c) by (destruct get; [now apply get_In|discriminate]).
      assert (Lv : Lk o key v) by (apply HN; now left).
      destruct Hx as [X1 X2]. split; intros A; [specialize (X1 A)|specialize (X2 A)]; cbn in *.
      * destruct X1 as [_ X1]. specialize (X1 v Lv). destruct (hit v); cbn; auto. discriminate.
      * destruct X2 as [_ X2]. specialize (X2 v). destruct (hit v); cbn; auto.
    + destruct Hx as [X1 X2]. split; intros A; [specialize (X1 A)|specialize (X2 A)]; cbn in *; tauto.
  - exact Hx.
  - split; intros; exact I.
  - split; intros; exact I.
  - split; intros; exact I.
  - split; [rewrite Forall_map; eapply Forall_impl; [|exact Ha]; intros t; apply tl_wake|].
    split; [destruct q; [split; intros; exact I|exact I]|].
    rewrite Forall_map. eapply Forall_impl; [|exact Hb]. intros t; apply tl_wake.
Qed.
Lemma run_oinv s s' : run s s' -> (forall q, In q (requests s') -> In q qs) -> single s' -> (exists o, oinv o s) -> exists o, oinv o s'.
Proof.
  intros R. induction R as [s|s s1 s2 R IH St]; auto. intros Sub Si I0.
  assert (Pre : exists l, requests s2 = (requests s1 ++ l)%list) by (apply run_prefix; eapply run_step; [apply run_refl|exact St]).
  destruct Pre as [l El].
  assert (Si1 : single s1).
  { unfold single in *. rewrite El, filter_app in Si. destruct (filter keep (requests s1)) as [|x l1]; [now left|]. right.
    destruct Si as [Si|Si]; [discriminate|]. cbn in Si. injection Si as -> Si. destruct l1; [reflexivity|discriminate]. }
  destruct (IH ltac:(intros q Iq; apply Sub; rewrite El; apply in_or_app; now left) Si1 I0) as [o Io].
  destruct St as [s1 s2 _ G|c m ts q _]; [eapply gstep_oinv; eauto|].
  assert (NK : forall k v, noted (State c m (ts ++ [(Some q, TRun (program q))])) k v -> noted (State c m ts) k v).
  { intros k v [A|(t & A & B)]; [now left|]. cbn [threads] in A. apply in_app_or in A as [A|[A|[]]]; [right; exists t; auto|subst t; contradiction]. }
  destruct Io as (HN & HT & HK).
  assert (Iq : In q qs) by (apply Sub; unfold requests; cbn; rewrite flat_map_app; apply in_or_app; right; now left).
  destruct (about_dec q) as [A|A].
  - destruct (single_alone (State c m (ts ++ [(Some q, TRun (program q))])) ts q _ [] Si eq_refl A) as [-> Al].
    (* the first request about the folder: nothing has been loaded *)
    assert (On : o = None \/ exists ho, o = Some ho) by (destruct o; eauto). destruct On as [-> |[ho ->]].
    + exists None. split; [|split; [|discriminate]].
      * intros k v I. apply HN. auto.
      * cbn. apply Forall_app. split; [exact HT|constructor; auto]. split; [intros _; apply linked_program|]. intros B. now apply B in A.
    + exfalso. destruct (HK ho eq_refl) as [_ (q' & Iq' & A')]. unfold requests in Iq'. apply in_flat_map in Iq' as ([[q1|] g1] & It & E); [|contradiction].
      destruct E as [->|[]]. apply (Al q' g1); auto. rewrite app_nil_r. exact It.
  - exists o. split; [|split].
    + intros k v I. apply HN. auto.
    + cbn. apply Forall_app. split; [exact HT|constructor; auto]. split; [intros B; now apply A in B|]. intros _. now apply away_program.
    + intros ho E. destruct (HK ho E) as [[v K1] (q' & K2 & K3)]. split.
      * exists v. destruct K1 as [K1|(t & K1 & K1')]; [now left|right; exists t; split; auto; cbn; apply in_or_app; now left].
      * exists q'. split; auto. unfold requests in *. cbn in *. rewrite flat_map_app. apply in_or_app. now left.
Qed.
Lemma one_load s b : run (initial []) s -> (forall q, In q (requests s) -> In q qs) -> single s -> answered s q0 (Ok (VBytes b)) ->
  exists h, shown sv h q0 (Ok (VBytes b)) /\ known s id /\ (forall v, noted s id v -> v = VHyd (Some h)) /\
    forall v, noted s (page q0) v -> exists x, v = VBytes x /\ shown sv h q0 (Ok (VBytes x)).
Proof.
  intros R Sub Si A.
  destruct (run_oinv _ _ R Sub Si) as (o & HN & HT & HK).
  { exists None. split; [|split; [constructor|discriminate]]. intros k v [[]|(t & [] & _)]. }
  rewrite Forall_forall in HT. specialize (HT _ A). unfold tl in HT. cbn [fst snd] in HT. destruct HT as [HT _].
  assert (Ab : about id q0) by (destruct q0; cbn in *; tauto).
  specialize (HT Ab). cbn in HT. destruct (HT b eq_refl) as (h & -> & Sh). exists h. split; [exact Sh|]. split; [now apply (HK (Some h))|]. split.
  - intros v I. destruct (HN _ _ I) as [X _]. destruct (X eq_refl) as (ho & [= <-] & ->). reflexivity.
  - intros v I. destruct (HN _ _ I) as [_ X]. destruct (X eq_refl) as (h' & x & [= <-] & -> & Sx). eauto.
Qed.
Lemma one_answer s b r : single s -> answered s q0 (Ok (VBytes b)) -> answered s q0 r -> r = Ok (VBytes b).
Proof.
  intros Si A B. assert (Ab : about id q0) by (destruct q0; cbn in *; tauto). unfold answered in *.
  apply in_split in A as (l1 & l2 & E). destruct (single_alone s l1 q0 _ l2 Si E Ab) as [_ Al]. rewrite E in B.
  apply in_app_or in B as [B|[B|B]]; [|now injection B|]; exfalso; eapply Al; try exact Ab; apply in_or_app; eauto.
Qed.
End One.

(** what is shown of an idle server's cache *)
Lemma page_stored s q b : run (initial []) s -> separate (requests s) -> at_rest s -> up s -> of_folder q ->
  answered s q (Ok (VBytes b)) ->
  (exists x, mget String.eqb (page q) (stored s) = Some (VBytes x) /\
     exists r, answered s q r /\ (r = Ok (VBytes x) \/ x = None /\ exists m, r = Err m)) /\
  match q with RRender _ _ => True | _ => exists ho, mget String.eqb (fid q) (stored s) = Some (VHyd ho) end.
Proof.
  intros R Sp Re Up O A. destruct (rest_idle s R Sp Re Up) as ((Hc & _) & Id).
  destruct (run_pinv _ _ R pinv_initial) as (HT & HO & _).
  pose proof (HT _ _ A) as P. cbn in P. destruct (P O b eq_refl) as [KP KF].
  assert (Iq : In q (requests s)) by (unfold requests; apply in_flat_map; eexists; split; [exact A|now left]).
  assert (TY : forall a v, In a (resources q) -> mget String.eqb (resource_key a) (stored s) = Some v -> holds sv a v).
  { intros a v Ia E. apply get_In in E. destruct (Hc _ _ E) as (q2 & a2 & I2 & Ia2 & K & Ho).
    rewrite (Sp q q2 a a2 Iq I2 Ia Ia2 (eq_sym K)). exact Ho. }
  split.
  - destruct (idle_stored s _ Id KP) as [v Ev]. pose proof (TY (page_res q) v (page_in q O)) as T. rewrite (page_key q O) in T. specialize (T Ev).
    assert (X : exists x, v = VBytes x) by (destruct q; cbn in O, T; try contradiction; destruct T as (h & _ & T); now apply kept_bytes in T).
    destruct X as [x ->]. exists x. split; auto.
    destruct (HO (page q) x (or_introl (get_In _ _ _ Ev))) as (q' & r & O' & E & A' & Rr). exists r. split; auto.
    assert (Iq' : In q' (requests s)) by (unfold requests; apply in_flat_map; eexists; split; [exact A'|now left]).
    assert (Eq : page_res q = page_res q').
    { apply (Sp q q'); auto using page_in. rewrite (page_key q O), (page_key q' O'). exact E. }
    apply page_res_inj in Eq; auto. now subst q'.
  - destruct q; cbn in O; try contradiction; auto; destruct (idle_stored s _ Id KF) as [v Ev];
      pose proof (TY (ResFolder id) v ltac:(cbn; auto) Ev) as T; cbn in T; destruct T as [(h & -> & _)|[-> _]]; eauto.
Qed.
End Change.
