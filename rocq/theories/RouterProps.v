(** * RouterProps: the address of every answer *)
From Coq Require Import String Ascii List Bool.
From Verif Require Import GoBase GoSpec GoFacts PathModel PathSpec PathProofs WebModel WebSpec WebProofs WebProps RouterModel RouterSpec RouterProofs.
Import ListNotations.
Local Open Scope string_scope.

(** ** C123 *)
Lemma seg_inj id id' b b' : part_name id -> part_name id' -> (b = "" \/ exists r, b = String "/" r) ->
  (b' = "" \/ exists r, b' = String "/" r) -> id ++ b = id' ++ b' -> id = id' /\ b = b'.
Proof. intros P P' B B' E. apply (f_equal segment) in E. rewrite !seg_part in E by auto. injection E as -> ->. auto. Qed.
Lemma one_two id id' h : part_name id -> part_name id' -> id <> id' ++ "/" ++ h.
Proof.
  intros P P' E. rewrite <- (append_nil_r id) in E. apply seg_inj in E as [_ E]; auto using slash_rest. discriminate E.
Qed.
Lemma two_two id id' h h' : part_name id -> part_name id' -> id ++ "/" ++ h = id' ++ "/" ++ h' -> id = id' /\ h = h'.
Proof. intros P P' E. apply seg_inj in E as [-> E]; auto using slash_rest. injection E as ->. auto. Qed.
Lemma facts_name : part_name "facts".
Proof. split; [discriminate|]. cbn. repeat split; discriminate. Qed.
Lemma folders_inj a b : "/folders/" ++ a = "/folders/" ++ b -> a = b.
Proof. now intros [= ->]. Qed.
(** Every address is for one thing. *)
Theorem C123_one_destination : forall path, exists d, addressed path d /\ forall d', addressed path d' -> d' = d.
Proof.
  intro path.
  assert (EX : exists d, addressed path d).
  { destruct (forms path) as [S|r -> B|id P ->|id P ->|id h P Q ->|id h r P F ->].
    - exists Elsewhere. apply ad_elsewhere; intros; now apply no_prefix.
    - exists Elsewhere. apply ad_elsewhere.
      + intros id P E%folders_inj. subst r. destruct B as [-> |(q&->)]; destruct P as [P F]; [now apply P|destruct F as [F _]; now apply F].
      + intros id h P _ E%folders_inj. subst r. destruct P as [P F]. destruct id as [|c id]; [now apply P|].
        destruct B as [B|(q&B)]; [discriminate B|]. injection B as ->. destruct F as [F _]. now apply F.
    - exists (CatalogOf id). now apply ad_catalog.
    - exists Elsewhere. apply ad_elsewhere.
      + intros id' P' E%folders_inj. symmetry in E. now apply (one_two id' id "") in E.
      + intros id' h P' Q E%folders_inj. apply (two_two id id' "" h) in E as [_ <-]; auto. now destruct Q.
    - destruct (String.eqb_spec h "facts") as [-> |N].
      + exists (FactsOf id). now apply ad_facts.
      + exists (RenderableOf id h). now apply ad_renderable.
    - exists Elsewhere. apply ad_elsewhere.
      + intros id' P' E%folders_inj. symmetry in E. now apply one_two in E.
      + intros id' h' P' Q E%folders_inj. apply (two_two id id' (h ++ "/" ++ r) h') in E as [_ <-]; auto.
        destruct Q as [_ Q]. apply free_of_app in Q as [_ Q]. destruct Q as [Q _]. now apply Q. }
  destruct EX as (d&D). exists d. split; auto. intros d' D'.
  destruct D as [id P ->|id P ->|id h P Q N ->|A B]; destruct D' as [id' P' E|id' P' E|id' h' P' Q' N' E|A' B']; subst;
    try reflexivity; try apply folders_inj in E;
    try (now rewrite E); try (exfalso; now apply (one_two _ _ _) in E);
    try (exfalso; symmetry in E; now apply (one_two _ _ _) in E).
  - exfalso. now apply (A' id).
  - apply (two_two id id' "facts" "facts") in E as [-> _]; auto.
  - apply (two_two id id' "facts" h') in E as [-> <-]; auto. now elim N'.
  - exfalso. apply (B' id "facts"); auto using facts_name.
  - apply (two_two id id' h "facts") in E as [-> ->]; auto. now elim N.
  - apply two_two in E as [-> ->]; auto.
  - exfalso. now apply (B' id h).
  - exfalso. now apply (A id').
  - exfalso. apply (B id' "facts"); auto using facts_name.
  - exfalso. now apply (B id' h').
Qed.
Print Assumptions C123_one_destination.

Lemma serve_tidy detect s method path query : tidy path ->
  serve detect s method path query =
  match try_routes method path new_router with
  | Matched ToCatalog vs => Answer (option_map (finish detect) (catalog_handler (svCatalog s) (HttpRequest method vs query)))
  | Matched ToRenderable vs => Answer (option_map (finish detect) (renderable_handler (svRenderable s) (HttpRequest method vs query)))
  | Matched ToExpressable vs => Answer (option_map (finish detect) (expressable_handler (svExpressable s) (HttpRequest method vs query)))
  | Matched ToFiles _ => Answer (svFiles s method path)
  | Missed true => Answer (option_map (finish detect) (Some (http_error "" 405 new_writer)))
  | Missed false => Answer (option_map (finish detect) (Some (http_error "404 page not found" 404 new_writer)))
  end.
Proof. intro T. unfold serve. rewrite clean_tidy by auto. now rewrite String.eqb_refl. Qed.

(** What a GET of an address is answered with: what the service for its folder (and slug,
    or fact) says, and the files of the browser for all other addresses. The fields of a
    query for a fact are decoded as in C61. *)
Theorem C123_get : forall detect s path query d, tidy path -> addressed path d ->
  exists x, serve detect s "GET" path query = Answer x /\
    match d with
    | CatalogOf id => reflects (svCatalog s id) x
    | RenderableOf id hash => reflects (svRenderable s id hash) x
    | FactsOf id =>
        ((forall vs, ~ query_fields query vs) -> refused 500 x) /\
        (forall vs n c, query_fields query vs -> field vs "name" n -> field vs "contextref" c ->
           ((forall n', ~ encodes n' n) \/ (forall c', ~ encodes c' c) -> refused 400 x) /\
           (forall n' c', encodes n' n -> encodes c' c -> reflects (svExpressable s id n' c') x))
    | Elsewhere => x = svFiles s "GET" path
    end.
Proof.
  intros detect s path query d T D. rewrite serve_tidy by auto. destruct D as [id P ->|id P ->|id h P Q N ->|A B].
  - rewrite try_table, to_id by auto. cbn [String.eqb Ascii.eqb]. eexists. split; [reflexivity|].
    apply C61_catalog; auto. split; [reflexivity|apply P].
  - rewrite try_table. rewrite (to_deep _ id "facts") by auto. cbn [String.eqb Ascii.eqb]. eexists. split; [reflexivity|].
    apply (C61_fact_partial detect (svExpressable s) (HttpRequest "GET" [("id", id)] query)); auto. split; [reflexivity|apply P].
  - rewrite try_table, to_deep by auto. destruct (String.eqb_spec h "facts") as [E|_]; [contradiction|].
    rewrite seg_part0 by auto. rewrite part_nonempty by auto. cbn [negb nonempty andb String.eqb Ascii.eqb].
    eexists. split; [reflexivity|].
    apply C61_renderable; auto; (split; [reflexivity|]); [apply P|apply Q].
  - rewrite to_files; [eexists; split; reflexivity|now apply tidy_rooted|].
    destruct (forms path) as [S|r -> R|id P ->|id P ->|id h P Q ->|id h r P F ->].
    + now apply to_other.
    + now apply to_empty.
    + exfalso. now apply (A id).
    + change ("/folders/" ++ id ++ "/") with ("/folders/" ++ id ++ "/" ++ ""). rewrite to_deep by auto. cbn. eauto.
    + exfalso. now apply (B id h).
    + rewrite to_deep by auto. destruct (String.eqb_spec (h ++ "/" ++ r) "facts") as [E|_].
      * exfalso. assert (X : free_of "/" (h ++ "/" ++ r)) by (rewrite E; apply facts_name).
        apply free_of_app in X as [_ [X _]]. now apply X.
      * rewrite segment_app by auto using slash_rest. rewrite andb_false_r. eauto.
Qed.
Print Assumptions C123_get.

(** With any other method every address is one of the files of the browser. *)
Theorem C123_other_methods : forall detect s method path query, method <> "GET" -> tidy path ->
  serve detect s method path query = Answer (svFiles s method path).
Proof.
  intros detect s method path query M T. rewrite serve_tidy by auto.
  assert (G : String.eqb method "GET" = false) by (destruct (String.eqb_spec method "GET"); auto; contradiction).
  rewrite to_files; [reflexivity|now apply tidy_rooted|].
  destruct (forms path) as [S|r -> R|id P ->|id P ->|id h P Q ->|id h r P F ->].
  - now apply to_other.
  - now apply to_empty.
  - rewrite to_id by auto. rewrite G. eauto.
  - change ("/folders/" ++ id ++ "/") with ("/folders/" ++ id ++ "/" ++ ""). rewrite to_deep by auto. rewrite G. cbn. eauto.
  - rewrite to_deep by auto. rewrite G. destruct (String.eqb h "facts"); eauto. destruct (segment h). destruct (_ && _); eauto.
  - rewrite to_deep by auto. rewrite G. destruct (String.eqb _ "facts"); eauto. destruct (segment _). destruct (_ && _); eauto.
Qed.
Print Assumptions C123_other_methods.

(** An address with detours is redirected, once, to the tidy address of the same place. *)
Theorem C123_redirect : forall detect s method path query, ~ tidy path ->
  exists p, serve detect s method path query = Redirect 301 p /\ tidy p /\
    ((exists r, path = "/" ++ r) -> forall l, leads_to path l -> leads_to p l).
Proof.
  intros detect s method path query T. exists (clean_path path). split; [|split].
  - unfold serve. destruct (String.eqb_spec (clean_path path) path) as [E|_]; [|reflexivity]. exfalso. now apply T, clean_iff.
  - apply tidy_clean.
  - intros (r&->) l L. now apply clean_leads.
Qed.
Print Assumptions C123_redirect.

Example C123_example :
  tidy "/folders/F/facts" /\ addressed "/folders/F/facts" (FactsOf "F") /\
  tidy "/folders/F/" /\ addressed "/folders/F/" Elsewhere /\
  addressed "/folders/F/0a" (RenderableOf "F" "0a") /\
  ~ tidy "/folders//F/../G" /\
  serve (fun _ => "") (Services (fun _ => Panic) (fun _ _ => Panic) (fun _ _ _ => Panic) (fun _ _ => None)) "GET" "/folders//F/../G" ""
    = Redirect 301 "/folders/G".
Proof.
  assert (F : part_name "F") by (split; [discriminate|cbn; repeat split; discriminate]).
  assert (EF : entry_name_ok "F") by (repeat split; discriminate).
  assert (ED : entry_name_ok "folders") by (repeat split; discriminate).
  assert (EA : entry_name_ok "facts") by (repeat split; discriminate).
  split; [|split; [|split; [|split; [|split; [|split]]]]].
  - exists ["folders"; "F"; "facts"]. split; [auto|]. left. reflexivity.
  - now apply (ad_facts _ "F").
  - exists ["folders"; "F"]. split; [auto|]. right. split; [discriminate|reflexivity].
  - apply ad_elsewhere.
    + intros id [_ P] E. apply (folders_inj "F/" id) in E. subst id. cbn in P. destruct P as (_&P&_). now apply P.
    + intros id h P Q E. apply (folders_inj "F/" (id ++ "/" ++ h)) in E.
      apply (two_two "F" id "" h F P) in E as [_ <-]. now destruct Q.
  - apply (ad_renderable _ "F" "0a"); auto; [split; [discriminate|cbn; repeat split; discriminate]|discriminate].
  - intro T. apply clean_tidy in T. discriminate T.
  - reflexivity.
Qed.
