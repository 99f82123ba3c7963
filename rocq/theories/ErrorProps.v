(** * ErrorProps: an answer other than a success cannot be taken for a page (C167) *)
From Coq Require Import String Ascii List Bool.
From Verif Require Import GoBase GoSpec GoFacts PathModel PathSpec PathProofs WebModel WebSpec WebProofs WebProps RouterModel RouterSpec RouterProofs RouterProps BrowserModel ErrorSpec.
From Verif Require CacheModel CacheSpec.
From Verif Require Import ServerModel ServerSpec.
Import ListNotations.
Local Open Scope string_scope.

Definition codes : list nat := [400; 403; 404; 500].
Definition well_refused (p : response) : Prop := In (status p) codes /\ sent_as_text p.
Lemma error_text detect msg code : In code codes -> well_refused (finish detect (http_error msg code new_writer)).
Proof.
  intro I. assert (E : finish detect (http_error msg code new_writer) =
    Response code [("Content-Type", "text/plain; charset=utf-8"); ("X-Content-Type-Options", "nosniff")] (msg ++ String (ascii_of_nat 10) "")) by reflexivity.
  rewrite E. split; [exact I|]. split; cbn; [|auto]. intro t. split; [intros [[= <-]|[[=]|[]]]; reflexivity|intros ->; auto].
Qed.
Ltac by_error := right; apply error_text; cbn; tauto.
Lemma reply_refuses detect r w : reply r = Some w -> status (finish detect w) = 200 \/ well_refused (finish detect w).
Proof. destruct r as [d|m|]; cbn [reply]; intros [= <-]; [left; reflexivity|by_error]. Qed.
Lemma catalog_refuses detect service r w : catalog_handler service r = Some w -> status (finish detect w) = 200 \/ well_refused (finish detect w).
Proof.
  unfold catalog_handler. destruct (negb _); [intros [= <-]; by_error|]. destruct (negb _); [intros [= <-]; by_error|]. apply reply_refuses.
Qed.
Lemma renderable_refuses detect service r w : renderable_handler service r = Some w -> status (finish detect w) = 200 \/ well_refused (finish detect w).
Proof.
  unfold renderable_handler. destruct (negb _); [intros [= <-]; by_error|]. destruct (negb _); [intros [= <-]; by_error|].
  destruct (negb _); [intros [= <-]; by_error|]. apply reply_refuses.
Qed.
Lemma expressable_refuses detect service r w : expressable_handler service r = Some w -> status (finish detect w) = 200 \/ well_refused (finish detect w).
Proof.
  unfold expressable_handler. destruct (negb _); [intros [= <-]; by_error|]. destruct (negb _); [intros [= <-]; by_error|].
  destruct (parse_query _) as [vs|m|]; [|intros [= <-]; by_error|discriminate].
  destruct (query_unescape _) as [n|m|]; [|intros [= <-]; by_error|discriminate].
  destruct (query_unescape _) as [c|m|]; [|intros [= <-]; by_error|discriminate]. apply reply_refuses.
Qed.
Lemma file_refuses m url query : status (serve_file m url query) = 200 \/ leads_on (serve_file m url query) \/ well_refused (serve_file m url query).
Proof.
  assert (LR : forall l q, leads_on (local_redirect l q)) by (intros l q; split; [reflexivity|]; split; [reflexivity|]; cbn; eauto).
  assert (FE : forall msg code, In code codes -> well_refused (file_error msg code)) by (intros; now apply error_text).
  unfold serve_file. destruct (has_suffix _ _); [auto|].
  destruct (dir_open _ _); try (right; right; apply FE; cbn; tauto).
  - destruct (ends_with_slash _); [|auto]. destruct (String.eqb _ _); [right; right; apply FE; cbn; tauto|auto].
  - destruct (negb _); [auto|]. destruct (dir_open _ _); auto.
Qed.
Lemma browse_refuses m method path query : let p := browse m method path query in status p = 200 \/ leads_on p \/ well_refused p.
Proof.
  cbv zeta. unfold browse.
  assert (X : let x := match strip "/" path with Some p => file_server m p query | None => file_error "404 page not found" 404 end in status x = 200 \/ leads_on x \/ well_refused x).
  { cbv zeta. destruct (strip _ _); [apply file_refuses|right; right; apply error_text; cbn; tauto]. }
  cbv zeta in X. set (x := match strip "/" path with Some p => file_server m p query | None => file_error "404 page not found" 404 end) in *.
  destruct (String.eqb method "HEAD"); [|exact X]. destruct X as [X|[(A&B&C)|[A (B&C)]]]; [now left|right; left|right; right].
  - split; [exact A|]. split; [reflexivity|exact C].
  - split; [exact A|]. split; [exact B|exact C].
Qed.

(** C167: every answer, whatever the method, the address and the query, and whatever the services say: a success; or a redirection
    without a text; or a refusal (400, 403, 404, 500) sent as plain text, the type of which the client must not guess. *)
Theorem C167_refusals : forall detect m s method path query p,
  serve detect (with_browser m s query) method path query = Answer (Some p) ->
  status p = 200 \/ leads_on p \/ (In (status p) [400; 403; 404; 500] /\ sent_as_text p).
Proof.
  intros detect m s method path query p E. unfold serve in E. destruct (negb _) eqn:N; [discriminate E|].
  apply negb_false_iff, String.eqb_eq in N. apply clean_iff in N. pose proof (tidy_rooted _ N) as R.
  destruct (try_route method path (Subrouter T_folders table) false) as [e vs|b] eqn:T.
  - rewrite try_table, T in E. destruct e; injection E as E.
    + destruct (catalog_handler _ _) as [w|] eqn:H; [|discriminate E]. injection E as <-. apply (catalog_refuses detect) in H. destruct H; auto.
    + destruct (renderable_handler _ _) as [w|] eqn:H; [|discriminate E]. injection E as <-. apply (renderable_refuses detect) in H. destruct H; auto.
    + destruct (expressable_handler _ _) as [w|] eqn:H; [|discriminate E]. injection E as <-. apply (expressable_refuses detect) in H. destruct H; auto.
    + cbn [with_browser svFiles] in E. subst p. apply browse_refuses.
  - rewrite (to_files method path R (ex_intro _ b T)) in E. cbn [with_browser svFiles] in E. injection E as <-. apply browse_refuses.
Qed.
Print Assumptions C167_refusals.

(** ... and so for the running server, in every state it can be in *)
Theorem C167_served : forall H S N U (s : CacheModel.state H S N U) detect m method path query p,
  exchanged detect (fun method path => Some (browse m method path query)) s method path query (Answer (Some p)) ->
  status p = 200 \/ leads_on p \/ (In (status p) [400; 403; 404; 500] /\ sent_as_text p).
Proof.
  intros H S N U s detect m method path query p (sv&F&E&_). apply (C167_refusals detect m sv method path query). rewrite E. f_equal.
  destruct sv as [a b c f]. cbn in F. now subst f.
Qed.
Print Assumptions C167_served.

(** A message may have markup in it, as a service may repeat what it was asked for: it is sent as text all the same. *)
Example C167_markup : forall m, exists p, let s := Services (fun id => Err ("no folder " ++ id)) (fun _ _ => Panic) (fun _ _ _ => Panic) (fun _ _ => None) in
  serve (fun _ => "text/html; charset=utf-8") (with_browser m s "") "GET" "/folders/<script>" "" = Answer (Some p) /\
  status p = 500 /\ body p = "Error: no folder <script>" ++ String (ascii_of_nat 10) "" /\ sent_as_text p.
Proof.
  intro m. eexists. cbv zeta. split; [vm_compute; reflexivity|]. split; [reflexivity|]. split; [reflexivity|].
  split; cbn; [|auto]. intro t. split; [intros [[= <-]|[[=]|[]]]; reflexivity|intros ->; auto].
Qed.
