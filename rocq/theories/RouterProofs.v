(** * RouterProofs: clean paths; templates *)
From Coq Require Import String Ascii List Bool.
From Verif Require Import GoBase GoSpec GoFacts PathModel PathSpec PathProofs WebModel RouterModel RouterSpec.
Import ListNotations.
Local Open Scope string_scope.

(** ** Clean paths *)
Lemma ends_app a b : b <> "" -> ends_with_slash (a ++ b) = ends_with_slash b.
Proof.
  intro N. induction a as [|c a IH]; auto. cbn [append]. rewrite <- IH. cbn [ends_with_slash].
  destruct (a ++ b) eqn:E; auto. exfalso. destruct a; [now apply N|discriminate E].
Qed.
Lemma ends_free s : free_of "/" s -> ends_with_slash s = false.
Proof.
  induction s as [|c s IH]; auto. intros [N F]. cbn [ends_with_slash]. destruct s; [|now apply IH].
  destruct (Ascii.eqb_spec c "/"); [contradiction|reflexivity].
Qed.
Lemma concat_ends ns : ns <> [] -> Forall entry_name_ok ns -> exists a x, String.concat "/" ns = a ++ x /\ x <> "" /\ free_of "/" x.
Proof.
  intros N F. induction F as [|n ns H F IH]; [contradiction|]. destruct ns as [|m ns].
  - exists "", n. destruct H as (?&_&_&?). auto.
  - destruct IH as (a&x&E&X); [discriminate|]. exists (n ++ "/" ++ a), x. split; auto.
    change (String.concat "/" (n :: m :: ns)) with (n ++ "/" ++ String.concat "/" (m :: ns)). rewrite E.
    now rewrite append_assoc.
Qed.
Lemma slash_ends ns : ns <> [] -> Forall entry_name_ok ns -> ends_with_slash ("/" ++ String.concat "/" ns) = false.
Proof.
  intros N F. destruct (concat_ends ns N F) as (a&x&E&X&Fx). rewrite E. change ("/" ++ a ++ x) with (("/" ++ a) ++ x).
  rewrite ends_app by auto. now apply ends_free.
Qed.

Definition spot (ns : list string) : location := Location true 0 ns.
Lemma spot_ok ns : Forall entry_name_ok ns -> loc_ok (spot ns).
Proof. intro F. split; cbn; auto. Qed.
Lemma spot_text ns : text (spot ns) = "/" ++ String.concat "/" ns.
Proof. reflexivity. Qed.
Lemma rooted_place p : is_rooted p = true -> exists ns, Forall entry_name_ok ns /\ place p = spot ns.
Proof.
  intro R. pose proof (place_ok p) as [A F]. exists (names (place p)). split; auto.
  assert (E : absolute (place p) = true) by (unfold place; rewrite fold_step_abs; exact R).
  specialize (A E). destruct (place p) as [ab up ns]. cbn in *. now subst.
Qed.
Lemma slash_only ns : Forall entry_name_ok ns -> "/" ++ String.concat "/" ns = "/" -> ns = [].
Proof.
  intros F E. destruct ns as [|n ns]; auto. inversion F; subst. destruct H1 as (N&_). exfalso.
  injection E as E. destruct ns; cbn in E; [contradiction|]. destruct n; [contradiction|discriminate].
Qed.
Lemma clean_path_rooted p : is_rooted p = true -> exists ns, Forall entry_name_ok ns /\ place p = spot ns /\
  clean_path p = if ends_with_slash p && negb (match ns with [] => true | _ => false end)
                 then "/" ++ String.concat "/" ns ++ "/" else "/" ++ String.concat "/" ns.
Proof.
  intro R. destruct (rooted_place p R) as (ns&F&E). exists ns. split; auto. split; auto. unfold clean_path.
  destruct p as [|c p]; [discriminate R|]. cbn [nonempty negb]. rewrite R, clean_text, E, spot_text.
  destruct (String.eqb_spec ("/" ++ String.concat "/" ns) "/") as [X|X].
  - apply slash_only in X; auto. subst ns. now rewrite !andb_false_r.
  - destruct ns; [now elim X|]. reflexivity.
Qed.

Lemma tidy_rooted p : tidy p -> is_rooted p = true.
Proof. intros (ns&_&[-> |[_ ->]]); reflexivity. Qed.
Lemma clean_tidy p : tidy p -> clean_path p = p.
Proof.
  intro T. destruct (clean_path_rooted p (tidy_rooted _ T)) as (ns&F&E&->). destruct T as (ms&G&[-> |[N ->]]).
  - assert (ns = ms) as ->.
    { change ("/" ++ String.concat "/" ms) with (text (spot ms)) in E. rewrite place_text in E by (now apply spot_ok). now injection E. }
    destruct ms as [|m ms]; [reflexivity|]. rewrite slash_ends by (auto; discriminate). reflexivity.
  - assert (ns = ms) as ->.
    { change ("/" ++ String.concat "/" ms ++ "/") with (("/" ++ String.concat "/" ms) ++ "/") in E.
      rewrite place_glue in E by discriminate. change ("/" ++ String.concat "/" ms) with (text (spot ms)) in E.
      rewrite place_text in E by (now apply spot_ok). cbn in E. now injection E. }
    change ("/" ++ String.concat "/" ms ++ "/") with (("/" ++ String.concat "/" ms) ++ "/"). rewrite ends_app by discriminate.
    destruct ms; [contradiction|]. reflexivity.
Qed.
Lemma tidy_clean_rooted p : is_rooted p = true -> tidy (clean_path p).
Proof.
  intro R. destruct (clean_path_rooted p R) as (ns&F&_&->). exists ns. split; auto.
  destruct (ends_with_slash p); [|left; reflexivity]. destruct ns; [left; reflexivity|]. right. split; [discriminate|reflexivity].
Qed.
Lemma tidy_clean p : tidy (clean_path p).
Proof.
  destruct (is_rooted p) eqn:R; [now apply tidy_clean_rooted|]. destruct p as [|c p].
  - exists []. split; [constructor|]. left. reflexivity.
  - replace (clean_path (String c p)) with (clean_path ("/" ++ String c p)); [now apply tidy_clean_rooted|].
    unfold clean_path. cbn [nonempty negb]. rewrite R. reflexivity.
Qed.
Lemma clean_iff p : clean_path p = p <-> tidy p.
Proof. split; [intros <-; apply tidy_clean|apply clean_tidy]. Qed.
Lemma clean_leads p l : is_rooted p = true -> leads_to p l -> leads_to (clean_path p) l.
Proof.
  intros R L. apply leads_to_iff in L. apply leads_to_iff. destruct (clean_path_rooted p R) as (ns&F&E&C).
  rewrite L, E, C. destruct (ends_with_slash p && _).
  - change ("/" ++ String.concat "/" ns ++ "/") with (("/" ++ String.concat "/" ns) ++ "/").
    rewrite place_glue by discriminate. change ("/" ++ String.concat "/" ns) with (text (spot ns)).
    rewrite place_text by (now apply spot_ok). reflexivity.
  - change ("/" ++ String.concat "/" ns) with (text (spot ns)). rewrite place_text by (now apply spot_ok). reflexivity.
Qed.

(** ** Templates *)
Lemma segment_app a b : free_of "/" a -> (b = "" \/ exists r, b = String "/" r) -> segment (a ++ b) = (a, b).
Proof.
  intros F B. induction a as [|c a IH]; cbn [append].
  - destruct B as [-> |(r&->)]; reflexivity.
  - destruct F as [N F]. cbn [segment]. destruct (Ascii.eqb_spec c "/"); [contradiction|]. now rewrite IH.
Qed.
Lemma segment_spec s : exists a b, segment s = (a, b) /\ s = a ++ b /\ free_of "/" a /\ (b = "" \/ exists r, b = String "/" r).
Proof.
  induction s as [|c s IH]; [exists "", ""; cbn; auto|]. cbn [segment]. destruct (Ascii.eqb_spec c "/") as [-> |N].
  - exists "", (String "/" s). cbn. split; auto. split; auto. split; auto. right. now exists s.
  - destruct IH as (a&b&->&->&F&B). exists (String c a), b. cbn. auto.
Qed.
Lemma strip_app p s : strip p (p ++ s) = Some s.
Proof. induction p as [|c p IH]; auto. cbn. now rewrite Ascii.eqb_refl. Qed.
Lemma strip_iff p s r : strip p s = Some r <-> s = p ++ r.
Proof.
  split; [|intros ->; apply strip_app]. revert s. induction p as [|c p IH]; intros s; [now intros [= ->]|].
  destruct s as [|d s]; [discriminate|]. cbn. destruct (Ascii.eqb_spec c d) as [-> |]; [|discriminate]. intro H. now rewrite (IH s H).
Qed.

Definition T_folders := [Text "/folders"].
Definition T_catalog := [Text "/folders/"; Variable_ "id"].
Definition T_facts := [Text "/folders/"; Variable_ "id"; Text "/facts"].
Definition T_renderable := [Text "/folders/"; Variable_ "id"; Text "/"; Variable_ "hash"].
Lemma nonempty_part a : free_of "/" a -> nonempty a = true -> part_name a.
Proof. intros F N. split; auto. intros ->. discriminate N. Qed.
Lemma part_nonempty a : part_name a -> nonempty a = true.
Proof. intros [N _]. destruct a; [contradiction|reflexivity]. Qed.

(** every path is of one of these forms *)
Inductive form (path : string) : Prop :=
| form_other : strip "/folders/" path = None -> form path
| form_empty r : path = "/folders/" ++ r -> (r = "" \/ exists q, r = String "/" q) -> form path
| form_id id : part_name id -> path = "/folders/" ++ id -> form path
| form_end id : part_name id -> path = "/folders/" ++ id ++ "/" -> form path
| form_two id hash : part_name id -> part_name hash -> path = "/folders/" ++ id ++ "/" ++ hash -> form path
| form_deep id hash r : part_name id -> free_of "/" hash -> path = "/folders/" ++ id ++ "/" ++ hash ++ "/" ++ r -> form path.
Lemma forms path : form path.
Proof.
  destruct (strip "/folders/" path) as [r|] eqn:S; [|now apply form_other]. apply strip_iff in S.
  destruct (segment_spec r) as (id&b&_&->&F&B). destruct (nonempty id) eqn:N.
  - apply nonempty_part in F; auto. destruct B as [-> |(q&->)].
    + rewrite append_nil_r in S. eapply form_id; eauto.
    + destruct (segment_spec q) as (h&c&_&->&G&C). destruct C as [-> |(t&->)].
      * rewrite append_nil_r in S. destruct (nonempty h) eqn:M.
        -- apply (form_two _ id h); auto using nonempty_part.
        -- destruct h; [|discriminate M]. now apply (form_end _ id).
      * now apply (form_deep _ id h t).
  - destruct id; [|discriminate N]. eapply form_empty; eauto.
Qed.
Lemma prefix_folders r : strip "/folders" ("/folders/" ++ r) = Some ("/" ++ r).
Proof. reflexivity. Qed.
Lemma no_prefix path : strip "/folders/" path = None -> forall r, path <> "/folders/" ++ r.
Proof. intros H r ->. now rewrite strip_app in H. Qed.

(** ** The table *)
Lemma slash_rest b : "/" ++ b = "" \/ exists r, "/" ++ b = String "/" r.
Proof. right. now exists b. Qed.
Lemma seg_part id b : part_name id -> (b = "" \/ exists r, b = String "/" r) -> segment (id ++ b) = (id, b).
Proof. intros [_ F] B. now apply segment_app. Qed.
Lemma seg_part0 id : part_name id -> segment id = (id, "").
Proof. intro P. rewrite <- (append_nil_r id) at 1. apply seg_part; auto. Qed.
Definition table : list route := [Whole T_catalog ToCatalog; Subrouter T_catalog [Whole T_facts ToExpressable; Whole T_renderable ToRenderable]].
Lemma try_table method path : try_routes method path new_router =
  match try_route method path (Subrouter T_folders table) false with
  | Matched e vs => Matched e vs
  | Missed m => match try_route method path (Prefix [Text "/"] ToFiles) m with Matched e vs => Matched e vs | Missed m' => Missed m' end
  end.
Proof. reflexivity. Qed.
Lemma to_files method path : is_rooted path = true ->
  (exists m, try_route method path (Subrouter T_folders table) false = Missed m) ->
  try_routes method path new_router = Matched ToFiles [].
Proof.
  intros R (m&E). rewrite try_table, E. cbn [try_route fit]. destruct path as [|c p]; [discriminate R|]. cbn in R. cbn [strip]. rewrite Ascii.eqb_sym in R. now rewrite R.
Qed.
Lemma to_other method path : strip "/folders/" path = None -> exists m, try_route method path (Subrouter T_folders table) false = Missed m.
Proof.
  intro S. cbn [try_route fit T_folders]. destruct (strip "/folders" path); [|eauto]. cbn [table try_route T_catalog fit]. rewrite S. eauto.
Qed.
Lemma to_empty method r : (r = "" \/ exists q, r = String "/" q) -> exists m, try_route method ("/folders/" ++ r) (Subrouter T_folders table) false = Missed m.
Proof.
  intro B. cbn [try_route fit T_folders]. rewrite prefix_folders. cbn [table try_route T_catalog fit]. rewrite strip_app.
  change (segment r) with (segment ("" ++ r)). rewrite (segment_app "" r); cbn; eauto.
Qed.
Lemma fit_one id b : part_name id -> (b = "" \/ exists r, b = String "/" r) -> fit T_catalog ("/folders/" ++ id ++ b) = Some ([("id", id)], b).
Proof. intros P B. cbn [fit T_catalog]. rewrite strip_app, seg_part by auto. now rewrite part_nonempty. Qed.
Lemma fit_facts id b : part_name id -> fit T_facts ("/folders/" ++ id ++ "/" ++ b) =
  match strip "facts" b with Some r => Some ([("id", id)], r) | None => None end.
Proof.
  intro P. cbn [fit T_facts]. rewrite strip_app, seg_part by auto using slash_rest. rewrite part_nonempty by auto.
  change (strip "/facts" ("/" ++ b)) with (strip "facts" b). now destruct (strip "facts" b).
Qed.
Lemma fit_renderable id b : part_name id -> fit T_renderable ("/folders/" ++ id ++ "/" ++ b) =
  let (h, r) := segment b in if nonempty h then Some ([("id", id); ("hash", h)], r) else None.
Proof.
  intro P. cbn [fit T_renderable]. rewrite strip_app, seg_part by auto using slash_rest. rewrite part_nonempty by auto.
  change (strip "/" ("/" ++ b)) with (strip "" b). cbn [strip]. destruct (segment b) as [h r]. now destruct (nonempty h).
Qed.
Lemma to_id method id : part_name id -> try_route method ("/folders/" ++ id) (Subrouter T_folders table) false =
  if String.eqb method "GET" then Matched ToCatalog [("id", id)] else Missed true.
Proof.
  intro P. cbn [try_route fit T_folders]. rewrite prefix_folders. cbn [table try_route].
  pose proof (fit_one id "" P (or_introl eq_refl)) as E. rewrite append_nil_r in E. rewrite E.
  destruct (String.eqb method "GET"); auto.
  assert (N : strip "/" "" = None) by reflexivity.
  cbn [fit T_facts T_renderable]. rewrite strip_app, seg_part0, part_nonempty by auto. cbn. reflexivity.
Qed.
Lemma to_deep method id b : part_name id -> try_route method ("/folders/" ++ id ++ "/" ++ b) (Subrouter T_folders table) false =
  if String.eqb b "facts" then (if String.eqb method "GET" then Matched ToExpressable [("id", id)] else Missed true)
  else let (h, r) := segment b in
       if nonempty h && negb (nonempty r) then (if String.eqb method "GET" then Matched ToRenderable [("id", id); ("hash", h)] else Missed true)
       else Missed false.
Proof.
  intro P. cbn [try_route fit T_folders]. rewrite prefix_folders. cbn [table try_route].
  rewrite fit_one by auto using slash_rest. rewrite fit_facts, fit_renderable by auto.
  destruct (String.eqb_spec b "facts") as [-> |N].
  - cbn. destruct (String.eqb method "GET"); reflexivity.
  - destruct (strip "facts" b) as [[|c r']|] eqn:S; [apply strip_iff in S; now elim N| |];
      destruct (segment b) as [h r]; (destruct (nonempty h); [|reflexivity]); (destruct r; [|reflexivity]);
      cbn; destruct (String.eqb method "GET"); reflexivity.
Qed.
