(** C61, C62, C95: what an HTTP client sees. *)
From Coq Require Import Strings.String Strings.Ascii Lists.List Bool NArith Lia.
From Verif Require Import GoBase GoSpec GoFacts WebModel WebSpec WebProofs.
Import ListNotations.
Open Scope string_scope.

Ltac not_get := unfold catalog_handler, renderable_handler, expressable_handler;
  match goal with H : rqMethod ?r <> "GET" |- _ => apply String.eqb_neq in H; rewrite H end;
  cbn [negb option_map]; eexists; split; [reflexivity|apply finish_error].

(** ** C61 *)

Theorem C61_catalog : forall detect service r,
  let x := option_map (finish detect) (catalog_handler service r) in
  (rqMethod r <> "GET" -> refused 500 x) /\
  (rqMethod r = "GET" -> missing "id" r -> refused 400 x) /\
  (forall id, rqMethod r = "GET" -> given "id" r id -> reflects (service id) x).
Proof.
  intros detect service r x. subst x. repeat split.
  - intros H. not_get.
  - intros H Hm. unfold catalog_handler. rewrite H, (var_missing "id" r Hm). cbn [String.eqb Ascii.eqb negb nonempty].
    cbn [option_map]. eexists. split; [reflexivity|]. apply finish_error.
  - intros id H Hg. unfold catalog_handler. destruct (var_given _ _ _ Hg) as [-> Hn]. rewrite H, Hn.
    cbn [negb String.eqb]. apply reply_reflects.
Qed.
Print Assumptions C61_catalog.

Theorem C61_renderable : forall detect service r,
  let x := option_map (finish detect) (renderable_handler service r) in
  (rqMethod r <> "GET" -> refused 500 x) /\
  (rqMethod r = "GET" -> missing "id" r \/ missing "hash" r -> refused 400 x) /\
  (forall id hash, rqMethod r = "GET" -> given "id" r id -> given "hash" r hash -> reflects (service id hash) x).
Proof.
  intros detect service r x. subst x. repeat split.
  - intros H. not_get.
  - intros H Hm. unfold renderable_handler. rewrite H. cbn [String.eqb negb].
    destruct (nonempty (var "id" r)) eqn:En; cbn [negb].
    + destruct Hm as [Hm|Hm]; [rewrite (var_missing _ _ Hm) in En; discriminate|]. rewrite (var_missing _ _ Hm). cbn [nonempty negb].
      cbn [option_map]. eexists. split; [reflexivity|]. apply finish_error.
    + cbn [option_map]. eexists. split; [reflexivity|]. apply finish_error.
  - intros id hash H Hg Hh. unfold renderable_handler. destruct (var_given _ _ _ Hg) as [-> Hn], (var_given _ _ _ Hh) as [-> Hn'].
    rewrite H, Hn, Hn'. cbn [negb String.eqb]. apply reply_reflects.
Qed.
Print Assumptions C61_renderable.

(** Without a name or a context reference the service is asked for the empty
    one: not refused. *)
Theorem C61_refuted : exists detect service r,
  rqMethod r = "GET" /\ given "id" r "F" /\ rqRawQuery r = "" /\
  exists p, option_map (finish detect) (expressable_handler service r) = Some p /\ status p = 200.
Proof.
  exists (fun _ => "text/plain"), (fun _ _ _ => Ok (Some "{}")), (HttpRequest "GET" [("id", "F")] "").
  repeat split; try discriminate. eexists. split; reflexivity.
Qed.
Print Assumptions C61_refuted.

(** What does hold for facts: the query must be well formed (500 otherwise)
    and the two fields must be decodable a second time (400 otherwise);
    missing fields count as empty. *)
Theorem C61_fact_partial : forall detect service r,
  let x := option_map (finish detect) (expressable_handler service r) in
  (rqMethod r <> "GET" -> refused 500 x) /\
  (rqMethod r = "GET" -> missing "id" r -> refused 400 x) /\
  (forall id, rqMethod r = "GET" -> given "id" r id ->
     ((forall vs, ~ query_fields (rqRawQuery r) vs) -> refused 500 x) /\
     (forall vs n c, query_fields (rqRawQuery r) vs -> field vs "name" n -> field vs "contextref" c ->
        ((forall n', ~ encodes n' n) \/ (forall c', ~ encodes c' c) -> refused 400 x) /\
        (forall n' c', encodes n' n -> encodes c' c -> reflects (service id n' c') x))).
Proof.
  intros detect service r x. subst x.
  split; [intros H; not_get|]. split.
  - intros H Hm. unfold expressable_handler. rewrite H, (var_missing "id" r Hm). cbn [String.eqb Ascii.eqb negb nonempty].
    cbn [option_map]. eexists. split; [reflexivity|]. apply finish_error.
  - intros id H Hg. unfold expressable_handler. destruct (var_given _ _ _ Hg) as [-> Hn]. rewrite H, Hn.
    cbn [negb String.eqb]. split.
    + intros Hq. pose proof (parse_query_no_panic (rqRawQuery r)).
      destruct (parse_query (rqRawQuery r)) as [vs|m|] eqn:E; [|cbn [option_map]; eexists; split; [reflexivity|apply finish_error]|contradiction].
      apply parse_query_iff in E. now apply Hq in E.
    + intros vs n c Hq Hfn Hfc. rewrite (proj2 (parse_query_iff _ _) Hq).
      rewrite (field_unique _ _ _ _ (values_get_field "name" vs) Hfn), (field_unique _ _ _ _ (values_get_field "contextref" vs) Hfc).
      split.
      * intros HE. pose proof (unescape_no_panic n). pose proof (unescape_no_panic c).
        destruct (query_unescape n) as [n'|m|] eqn:En; [|cbn [option_map]; eexists; split; [reflexivity|apply finish_error]|contradiction].
        destruct (query_unescape c) as [c'|m|] eqn:Ec; [|cbn [option_map]; eexists; split; [reflexivity|apply finish_error]|contradiction].
        apply unescape_iff in En, Ec. destruct HE as [HE|HE]; [now apply HE in En|now apply HE in Ec].
      * intros n' c' En Ec. rewrite (proj2 (unescape_iff n n') En), (proj2 (unescape_iff c c') Ec). apply reply_reflects.
Qed.
Print Assumptions C61_fact_partial.

Example C61_example :
  let r := HttpRequest "GET" [("id", "F")] "name=us-gaap%3AAssets&contextref=c+1" in
  given "id" r "F" /\
  query_fields (rqRawQuery r) [("name", "us-gaap:Assets"); ("contextref", "c 1")] /\
  field [("name", "us-gaap:Assets"); ("contextref", "c 1")] "contextref" "c 1" /\
  encodes "c 1" "c 1".
Proof.
  repeat split; try discriminate.
  - apply parse_query_iff. vm_compute. reflexivity.
  - exact (values_get_field "contextref" [("name", "us-gaap:Assets"); ("contextref", "c 1")]).
  - apply unescape_iff. reflexivity.
Qed.

(** ** C62 *)

(** net/http fixes the header at WriteHeader, before the handler sets the
    content type: the client is told what net/http guesses, and nothing for an
    empty body.  (http.DetectContentType never guesses JSON.) *)
Theorem C62_refuted : forall detect, (forall b, detect b <> "application/json") ->
  forall p, 
    (exists service r, option_map (finish detect) (catalog_handler service r) = Some p) \/
    (exists service r, option_map (finish detect) (renderable_handler service r) = Some p) \/
    (exists service r, option_map (finish detect) (expressable_handler service r) = Some p) ->
  ~ content_type p "application/json".
Proof.
  intros detect Hd p HP HC.
  assert (HR : forall x, option_map (finish detect) (reply x) = Some p -> False).
  { intros [d|m|] E; cbn in E; [|injection E as <-|discriminate].
    - injection E as <-. unfold content_type, finish in HC. cbn in HC.
      destruct (nonempty match d with Some d0 => d0 | None => "" end); cbn in HC; [|contradiction].
      destruct HC as [[= HC]|[]]. now apply Hd in HC.
    - cbn in HC. intuition congruence. }
  assert (HE : forall msg code, option_map (finish detect) (Some (http_error msg code new_writer)) = Some p -> False).
  { intros msg code [= <-]. cbn in HC. intuition congruence. }
  destruct HP as [(service & r & E)|[(service & r & E)|(service & r & E)]].
  - unfold catalog_handler in E.
    destruct (negb (String.eqb (rqMethod r) "GET")); eauto. destruct (negb (nonempty (var "id" r))); eauto.
  - unfold renderable_handler in E.
    destruct (negb (String.eqb (rqMethod r) "GET")); eauto. destruct (negb (nonempty (var "id" r))); eauto.
    destruct (negb (nonempty (var "hash" r))); eauto.
  - unfold expressable_handler in E.
    destruct (negb (String.eqb (rqMethod r) "GET")); eauto. destruct (negb (nonempty (var "id" r))); eauto.
    destruct (parse_query (rqRawQuery r)) as [vs|m|]; eauto; try discriminate.
    destruct (query_unescape (values_get "name" vs)) as [n|m|]; eauto; try discriminate.
    destruct (query_unescape (values_get "contextref" vs)) as [c|m|]; eauto; discriminate.
Qed.
Print Assumptions C62_refuted.

(** The content type of a success is the one guessed from its bytes. *)
Theorem C62_guessed_partial : forall detect p,
    (exists service r, option_map (finish detect) (catalog_handler service r) = Some p) \/
    (exists service r, option_map (finish detect) (renderable_handler service r) = Some p) \/
    (exists service r, option_map (finish detect) (expressable_handler service r) = Some p) ->
  status p = 200 -> forall t, content_type p t <-> body p <> "" /\ t = detect (body p).
Proof.
  intros detect p HP Hs t.
  assert (HR : forall x, option_map (finish detect) (reply x) = Some p -> content_type p t <-> body p <> "" /\ t = detect (body p)).
  { intros [d|m|] E; cbn in E; [|injection E as <-; discriminate|discriminate].
    injection E as <-. unfold content_type, finish. cbn.
    set (b := match d with Some d0 => d0 | None => "" end). destruct b as [|c b]; cbn.
    - split; [intros []|intros [H _]; contradiction].
    - split; [intros [[= <-]|[]]; split; [discriminate|reflexivity]|intros [_ ->]; now left]. }
  assert (HE : forall msg code, code <> 200 -> option_map (finish detect) (Some (http_error msg code new_writer)) = Some p -> content_type p t <-> body p <> "" /\ t = detect (body p)).
  { intros msg code Hc [= <-]. now cbn in Hs. }
  destruct HP as [(service & r & E)|[(service & r & E)|(service & r & E)]].
  - unfold catalog_handler in E.
    destruct (negb (String.eqb (rqMethod r) "GET")); [refine (HE _ _ _ E); discriminate|].
    destruct (negb (nonempty (var "id" r))); [refine (HE _ _ _ E); discriminate|eauto].
  - unfold renderable_handler in E.
    destruct (negb (String.eqb (rqMethod r) "GET")); [refine (HE _ _ _ E); discriminate|].
    destruct (negb (nonempty (var "id" r))); [refine (HE _ _ _ E); discriminate|].
    destruct (negb (nonempty (var "hash" r))); [refine (HE _ _ _ E); discriminate|eauto].
  - unfold expressable_handler in E.
    destruct (negb (String.eqb (rqMethod r) "GET")); [refine (HE _ _ _ E); discriminate|].
    destruct (negb (nonempty (var "id" r))); [refine (HE _ _ _ E); discriminate|].
    destruct (parse_query (rqRawQuery r)) as [vs|m|]; [|refine (HE _ _ _ E); discriminate|discriminate].
    destruct (query_unescape (values_get "name" vs)) as [n|m|]; [|refine (HE _ _ _ E); discriminate|discriminate].
    destruct (query_unescape (values_get "contextref" vs)) as [c|m|]; [|refine (HE _ _ _ E); discriminate|discriminate].
    eauto.
Qed.
Print Assumptions C62_guessed_partial.

Example C62_example :
  let detect := fun _ => "text/plain; charset=utf-8" in
  let r := HttpRequest "GET" [("id", "F")] "" in
  (forall b : string, detect b <> "application/json") /\
  exists p, option_map (finish detect) (catalog_handler (fun _ => Ok (Some "{}")) r) = Some p /\
            status p = 200 /\ content_type p "text/plain; charset=utf-8".
Proof. split; [discriminate|]. eexists. split; [reflexivity|]. split; [reflexivity|]. now left. Qed.

(** ** C95 *)

(** The fields are decoded twice: asking, correctly encoded, for the context
    c+1 asks the service for "c 1"; and asking for 100% is refused. *)
Theorem C95_refuted : exists r vs,
  rqMethod r = "GET" /\ given "id" r "F" /\ query_fields (rqRawQuery r) vs /\
  field vs "name" "p:A" /\ field vs "contextref" "c+1" /\
  (forall detect service, reflects (service "F" "p:A" "c 1") (option_map (finish detect) (expressable_handler service r))) /\
  exists detect service, ~ reflects (service "F" "p:A" "c+1") (option_map (finish detect) (expressable_handler service r)).
Proof.
  exists (HttpRequest "GET" [("id", "F")] "name=p%3AA&contextref=c%2B1"), [("name", "p:A"); ("contextref", "c+1")].
  repeat split; try discriminate.
  - apply parse_query_iff. vm_compute. reflexivity.
  - exact (values_get_field "name" [("name", "p:A"); ("contextref", "c+1")]).
  - exact (values_get_field "contextref" [("name", "p:A"); ("contextref", "c+1")]).
  - intros detect service. apply reply_reflects.
  - exists (fun _ => ""), (fun _ _ c => Ok (Some c)). intros (p & E & _ & Hb). cbn in E. injection E as <-. discriminate.
Qed.
Print Assumptions C95_refuted.

Theorem C95_plain_partial : forall detect service r id vs n c,
  rqMethod r = "GET" -> given "id" r id -> query_fields (rqRawQuery r) vs ->
  field vs "name" n -> field vs "contextref" c ->
  free_of "%" n -> free_of "+" n -> free_of "%" c -> free_of "+" c ->
  reflects (service id n c) (option_map (finish detect) (expressable_handler service r)).
Proof.
  intros detect service r id vs n c Hm Hg Hq Hn Hc H1 H2 H3 H4.
  destruct (C61_fact_partial detect service r) as (_ & _ & H). destruct (H id Hm Hg) as [_ H'].
  destruct (H' vs n c Hq Hn Hc) as [_ H'']. apply H''; now apply plain_unescape.
Qed.
Print Assumptions C95_plain_partial.

Example C95_example :
  let r := HttpRequest "GET" [("id", "F")] "name=us-gaap%3AAssets&contextref=c+1" in
  query_fields (rqRawQuery r) [("name", "us-gaap:Assets"); ("contextref", "c 1")] /\ free_of "+" "c 1" /\ free_of "%" "c 1".
Proof. repeat split; try discriminate. apply parse_query_iff. vm_compute. reflexivity. Qed.
