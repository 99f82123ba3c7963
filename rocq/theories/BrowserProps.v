(** * BrowserProps: the files of the web page (C155) *)
From Coq Require Import String Ascii List Bool Lia.
From Verif Require Import GoBase GoSpec GoFacts PathModel PathSpec PathProofs WebModel WebSpec WebProofs RouterModel RouterSpec RouterProofs RouterProps BrowserModel BrowserSpec BrowserProofs.
Import ListNotations.
Local Open Scope string_scope.

Lemma plain_names ns : Forall plain ns -> Forall entry_name_ok ns.
Proof. intros F. eapply Forall_impl; [|exact F]. now intros a [A _]. Qed.
Lemma free_ascii c s : ~ In c (list_ascii_of_string s) -> free_of c s.
Proof. induction s as [|a s IH]; cbn; [easy|]. intros N. split; [intros ->|apply IH; intros I]; apply N; auto. Qed.
Lemma plain_free x c : plain x -> ~ In c (list_ascii_of_string unreserved) -> free_of c x.
Proof. intros [_ P] N. apply free_ascii. intros I. now apply N, P. Qed.
Lemma not_unreserved c : has_byte c unreserved = false -> ~ In c (list_ascii_of_string unreserved).
Proof. intros E I. apply byte_of in I. congruence. Qed.

Lemma reference_to r query : free_of "?" r -> free_of "#" r -> free_of ":" r -> free_of "%" r -> free_of "#" query ->
  reference (if nonempty query then r ++ "?" ++ query else r) r query.
Proof.
  intros A B C D E. repeat split; auto. destruct query; [now left|]. right. repeat split; try easy; apply E.
Qed.
Lemma plain_reference pre x post query : plain x -> free_of "#" query -> In pre ["./"; "../"; ""] -> In post [""; "/"] ->
  reference (if nonempty query then (pre ++ x ++ post) ++ "?" ++ query else pre ++ x ++ post) (pre ++ x ++ post) query.
Proof.
  intros P Q A B.
  assert (G : forall c, c <> "."%char -> c <> "/"%char -> has_byte c unreserved = false -> free_of c (pre ++ x ++ post)).
  { intros c C1 C2 C. apply free_of_app. split; [|apply free_of_app; split].
    - destruct A as [<-|[<-|[<-|[]]]]; cbn; repeat split; auto.
    - apply plain_free; auto using not_unreserved.
    - destruct B as [<-|[<-|[]]]; cbn; repeat split; auto. }
  apply reference_to; auto; apply G; easy.
Qed.
Lemma here_reference query : free_of "#" query -> reference (if nonempty query then "./" ++ "?" ++ query else "./") "./" query.
Proof. intros Q. apply reference_to; auto; cbn; repeat split; easy. Qed.

Section Answers.
  Variables (detect : string -> string) (m : site) (s : services).
  Definition get (path query : string) : answer := serve detect (with_browser m s query) "GET" path query.

  Lemma error_status msg code : status (file_error msg code) = code.
  Proof. reflexivity. Qed.

  Lemma via_index ns query x : Forall entry_name_ok ns -> hd "" ns <> "folders" -> free_of "#" query ->
    reaches get (directory_address ns) query x -> reaches get (address (ns ++ ["index.html"])) query x.
  Proof.
    intros F H Q R. assert (F' : Forall entry_name_ok (ns ++ ["index.html"])).
    { apply Forall_app. split; auto. repeat constructor; easy. }
    eapply onward; [apply got; [now apply tidy_address|apply elsewhere_address; auto]| | | | |exact R].
    - now destruct ns.
    - destruct ns; cbn in *; easy.
    - now rewrite index_answer.
    - rewrite index_answer by auto. reflexivity.
    - now apply here_reference.
    - rewrite address_snoc, directory_stem. constructor. cbn. repeat split; easy.
  Qed.
  Lemma via_slash ns n query x : Forall entry_name_ok ns -> plain n -> n <> "index.html" -> hd "" (ns ++ [n]) <> "folders" -> free_of "#" query ->
    dir_open m (address (ns ++ [n])) = ADirectory ->
    reaches get (directory_address (ns ++ [n])) query x -> reaches get (address (ns ++ [n])) query x.
  Proof.
    intros F P N H Q O R. assert (F' : Forall entry_name_ok (ns ++ [n])).
    { apply Forall_app. split; auto. repeat constructor; apply P. }
    eapply onward; [apply got; [now apply tidy_address|apply elsewhere_address; auto]| | | | |exact R].
    - now destruct ns.
    - now rewrite name_answer, O.
    - rewrite name_answer, O by auto. reflexivity.
    - apply (plain_reference "" n "/"); cbn; auto.
    - rewrite address_snoc, directory_stem. replace (stem (ns ++ [n]) ++ "/") with (stem ns ++ "/" ++ n ++ "/").
      + constructor; apply P.
      + unfold stem at 2. destruct (ns ++ [n])%list eqn:E; [now destruct ns|]. rewrite <- E, address_snoc. now rewrite !append_assoc.
  Qed.
  Lemma via_parent ns n data query x : Forall entry_name_ok ns -> plain n -> hd "" (ns ++ [n]) <> "folders" -> free_of "#" query ->
    dir_open m (address (ns ++ [n])) = AFile data ->
    reaches get (address (ns ++ [n])) query x -> reaches get (directory_address (ns ++ [n])) query x.
  Proof.
    intros F P H Q O R. assert (F' : Forall entry_name_ok (ns ++ [n])).
    { apply Forall_app. split; auto. repeat constructor; apply P. }
    assert (B : String.eqb n "/" = false).
    { destruct (String.eqb_spec n "/") as [->|]; auto. destruct P as ((_&_&_&X)&_). now cbn in X. }
    eapply onward; [apply got; [now apply tidy_directory|apply elsewhere_directory; auto]| | | | |exact R].
    - now rewrite directory_answer, O, base_directory, B.
    - rewrite directory_answer, O, base_directory, B by auto. reflexivity.
    - pose proof (plain_reference "../" n "" query P Q) as R0. rewrite append_nil_r in R0. apply R0; cbn; auto.
    - rewrite address_snoc, directory_stem. replace (stem (ns ++ [n]) ++ "/") with (stem ns ++ "/" ++ n ++ "/").
      + constructor; apply P.
      + unfold stem at 2. destruct (ns ++ [n])%list eqn:E; [now destruct ns|]. rewrite <- E, address_snoc. now rewrite !append_assoc.
  Qed.

  Lemma no_nul ns : Forall entry_name_ok ns -> Forall (fun n => ~ In Ascii.zero (list_ascii_of_string n)) ns -> has_byte Ascii.zero (address ns) = false.
  Proof.
    intros _ Z. destruct (has_byte _ _) eqn:E; auto. exfalso. apply byte_of in E. destruct E as [E|E]; [discriminate E|].
    change (In Ascii.zero (list_ascii_of_string (String.concat "/" ns))) in E.
    induction Z as [|n ns N Z IH]; [easy|]. destruct ns as [|n' ns]; [contradiction|].
    change (String.concat "/" (n :: n' :: ns)) with (n ++ String "/" (String.concat "/" (n' :: ns))) in E.
    assert (AP : forall a b c, In c (list_ascii_of_string (a ++ b)) -> In c (list_ascii_of_string a) \/ In c (list_ascii_of_string b)).
    { clear. intros a b c. induction a as [|x a IH]; cbn; auto. intros [->|I]; auto. apply IH in I as [I|I]; auto. }
    apply AP in E as [E|[E|E]]; [contradiction|discriminate E|auto].
  Qed.
  Lemma plain_nul ns : Forall plain ns -> Forall (fun n => ~ In Ascii.zero (list_ascii_of_string n)) ns.
  Proof.
    intros F. eapply Forall_impl; [|exact F]. intros a [_ P] I. apply P in I. revert I. now apply not_unreserved.
  Qed.
  Lemma app_nul ns n : Forall (fun n => ~ In Ascii.zero (list_ascii_of_string n)) (ns ++ [n]) ->
    Forall (fun n => ~ In Ascii.zero (list_ascii_of_string n)) ns.
  Proof. intros F. now apply Forall_app in F. Qed.
End Answers.

(** Whatever names they have, the files of the page are got under their addresses, unless the
    first name is "folders". *)
Theorem C155_files_partial : forall detect m s query dirs n data,
  one_place m -> free_of "#" query ->
  Forall entry_name_ok (dirs ++ [n]) -> Forall (fun n => ~ In Ascii.zero (list_ascii_of_string n)) (dirs ++ [n]) ->
  hd "" (dirs ++ [n]) <> "folders" ->
  at_names m dirs ADirectory -> at_names m (dirs ++ [n]) (AFile data) ->
  exists x, reaches (fun path query => serve detect (with_browser m s query) "GET" path query) (address (dirs ++ [n])) query x /\
    status x = 200 /\ body x = data.
Proof.
  intros detect m s query dirs n data O Q F Z H D A. exists (content m n data). split; [|auto].
  assert (FD : Forall entry_name_ok dirs) by now apply Forall_app in F. assert (ZD := app_nul dirs n Z).
  apply opened_at in D, A; auto. rewrite <- open_good in D, A by auto using no_nul.
  destruct (String.eqb_spec n "index.html") as [->|N].
  - assert (HD : hd "" dirs <> "folders") by (destruct dirs; cbn in *; easy).
    apply (via_index detect m s); auto. apply there; [|cbn; easy].
    unfold get. rewrite got by auto using tidy_directory, elsewhere_directory. now rewrite directory_answer, D, A.
  - apply there; [|cbn; easy]. cbv beta. rewrite got; [|now apply tidy_address|apply elsewhere_address; auto; now destruct dirs].
    now rewrite name_answer, A.
Qed.
Print Assumptions C155_files_partial.

(** The address of a directory shows its index.html, and else its names. *)
Theorem C155_directories_partial : forall detect m s query ns path,
  one_place m -> free_of "#" query -> Forall plain ns -> hd "" ns <> "folders" -> last ns "" <> "index.html" ->
  at_names m ns ADirectory -> (path = directory_address ns \/ (ns <> [] /\ path = address ns)) ->
  exists x, reaches (fun path query => serve detect (with_browser m s query) "GET" path query) path query x /\ status x = 200 /\
    (forall data, at_names m (ns ++ ["index.html"]) (AFile data) -> body x = data) /\
    (at_names m (ns ++ ["index.html"]) NotThere -> listing_at m ns (body x)).
Proof.
  intros detect m s query ns path O Q P H L D E.
  assert (F := plain_names ns P). assert (Z := plain_nul ns P).
  assert (F' : Forall entry_name_ok (ns ++ ["index.html"])) by (apply Forall_app; split; auto; repeat constructor; easy).
  assert (Z' : Forall (fun n => ~ In Ascii.zero (list_ascii_of_string n)) (ns ++ ["index.html"])).
  { apply Forall_app. split; auto. constructor; [|constructor]. intros I. apply byte_of in I. discriminate I. }
  assert (D' := D). apply opened_at in D'; auto. rewrite <- open_good in D' by auto using no_nul.
  set (x := serve_file m (directory_address ns) query).
  assert (G : serve detect (with_browser m s query) "GET" (directory_address ns) query = Answer (Some x)).
  { apply got; auto using tidy_directory, elsewhere_directory. }
  assert (X : status x = 200 /\ (forall data, at_names m (ns ++ ["index.html"]) (AFile data) -> body x = data) /\
    (at_names m (ns ++ ["index.html"]) NotThere -> listing_at m ns (body x))).
  { unfold x. rewrite directory_answer, D' by auto. rewrite open_good by auto using no_nul. repeat split.
    - now destruct (site_open _ _).
    - intros data A. apply opened_at in A; auto. now rewrite A.
    - intros A. apply opened_at in A; auto. rewrite A. now apply listed_here. }
  exists x. split; [|exact X]. assert (T : reaches (get detect m s) (directory_address ns) query x).
  { apply there; [exact G|]. destruct X as [-> _]. easy. }
  destruct E as [->|(N&->)]; [exact T|].
  destruct (exists_last N) as (ns'&n&->). rewrite last_last in L.
  assert (P' := P). apply Forall_app in P' as [P1 P2]. inversion P2; subst. apply via_slash; auto using plain_names.
Qed.
Print Assumptions C155_directories_partial.

(** The page itself *)
Theorem C155_start : forall detect m s query data, one_place m ->
  at_names m [] ADirectory -> at_names m ["index.html"] (AFile data) ->
  exists x, serve detect (with_browser m s query) "GET" "/" query = Answer (Some x) /\ status x = 200 /\ body x = data.
Proof.
  intros detect m s query data O D A.
  assert (F' : Forall entry_name_ok ["index.html"]) by (repeat constructor; easy).
  exists (content m "index.html" data). split; [|auto].
  change "/" with (directory_address []). rewrite got.
  - apply opened_at in D, A; auto. rewrite directory_answer by auto. rewrite !open_good by (auto; reflexivity). rewrite D. cbn [app]. now rewrite A.
  - now apply tidy_directory.
  - now apply elsewhere_directory.
Qed.
Print Assumptions C155_start.

(** Following redirects comes to an end. *)
Theorem C155_ends_partial : forall detect m s query ns path,
  free_of "#" query -> Forall plain ns -> hd "" ns <> "folders" ->
  (path = directory_address ns \/ (ns <> [] /\ path = address ns)) ->
  exists x, reaches (fun path query => serve detect (with_browser m s query) "GET" path query) path query x.
Proof.
  intros detect m s query ns path Q. revert path. induction ns as [|n ns IH] using rev_ind; intros path P H E.
  - destruct E as [->|(N&_)]; [|now elim N]. exists (serve_file m "/" query). apply there.
    + change "/" with (directory_address []). apply got; [now apply tidy_directory|now apply elsewhere_directory].
    + change "/" with (directory_address []). rewrite directory_answer by auto. destruct (dir_open m (address [])); try easy.
      now destruct (dir_open m _).
  - assert (P' := P). apply Forall_app in P' as [P1 P2]. inversion P2 as [|? ? Pn _]; subst.
    assert (F := plain_names _ P). assert (F1 := plain_names _ P1).
    assert (HD : hd "" ns <> "folders") by (destruct ns; cbn in *; easy).
    assert (GD : serve detect (with_browser m s query) "GET" (directory_address (ns ++ [n])) query = Answer (Some (serve_file m (directory_address (ns ++ [n])) query)))
      by auto using got, tidy_directory, elsewhere_directory.
    assert (GA : serve detect (with_browser m s query) "GET" (address (ns ++ [n])) query = Answer (Some (serve_file m (address (ns ++ [n])) query))).
    { apply got; [now apply tidy_address|apply elsewhere_address; auto; now destruct ns]. }
    assert (AD : exists x, reaches (get detect m s) (address (ns ++ [n])) query x).
    { destruct (String.eqb_spec n "index.html") as [->|N].
      - destruct (IH (directory_address ns) P1 HD (or_introl eq_refl)) as (x&X). exists x. now apply via_index.
      - destruct (dir_open m (address (ns ++ [n]))) eqn:O.
        2: { exists (serve_file m (directory_address (ns ++ [n])) query). apply via_slash; auto. apply there; [exact GD|].
             rewrite directory_answer, O by auto. now destruct (dir_open m (address ((ns ++ [n]) ++ ["index.html"]))). }
        all: exists (serve_file m (address (ns ++ [n])) query); apply there; [exact GA|]; now rewrite name_answer, O. }
    destruct E as [->|(_&->)]; [|exact AD].
    destruct (dir_open m (address (ns ++ [n]))) eqn:O.
    1: { destruct AD as (x&X). exists x. now apply (via_parent detect m s _ _ data). }
    all: exists (serve_file m (directory_address (ns ++ [n])) query); apply there; [exact GD|]; rewrite directory_answer, O by auto; try easy.
    now destruct (dir_open m (address ((ns ++ [n]) ++ ["index.html"]))).
Qed.
Print Assumptions C155_ends_partial.

(** Every page of the file server is a file under the name in the address, the index.html of the
    directory named there, or the names in a directory. *)
Theorem C155_pages : forall detect m s path query x,
  tidy path -> addressed path Elsewhere ->
  serve detect (with_browser m s query) "GET" path query = Answer (Some x) -> status x = 200 ->
  exists ns, Forall entry_name_ok ns /\
    ((path = address ns /\ at_names m ns (AFile (body x))) \/
     (path = directory_address ns /\ at_names m ns ADirectory /\ at_names m (ns ++ ["index.html"]) (AFile (body x))) \/
     (path = directory_address ns /\ at_names m ns ADirectory /\ listing_at m ns (body x)) \/
     (path = directory_address ns /\ at_names m (ns ++ ["index.html"]) ADirectory /\ listing_at m (ns ++ ["index.html"]) (body x))).
Proof.
  intros detect m s path query x T A G S. rewrite got in G by auto. injection G as <-.
  destruct (tidy_forms path T) as (ns&F&E). exists ns. split; auto.
  assert (F' : Forall entry_name_ok (ns ++ ["index.html"])) by (apply Forall_app; split; auto; repeat constructor; easy).
  assert (OP : forall ns o, Forall entry_name_ok ns -> o <> NotReadable -> dir_open m (address ns) = o -> at_names m ns o).
  { intros ns0 o F0 N <-. destruct (open_any m ns0) as [X|X]; [contradiction|]. rewrite X. now apply opened_here. }
  destruct E as [->|(N&->)].
  - right. rewrite directory_answer in * by auto. destruct (dir_open m (address ns)) eqn:O; try discriminate S.
    + destruct (String.eqb _ "/"); discriminate S.
    + destruct (dir_open m (address (ns ++ ["index.html"]))) eqn:O'.
      * left. repeat split; apply OP; easy.
      * right. right. repeat split; [apply OP; easy|now apply listed_here].
      * right. left. repeat split; [apply OP; easy|now apply listed_here].
      * right. left. repeat split; [apply OP; easy|now apply listed_here].
      * right. left. repeat split; [apply OP; easy|now apply listed_here].
  - left. split; auto. destruct (exists_last N) as (ns'&n&->). destruct (String.eqb_spec n "index.html") as [->|N'].
    + rewrite index_answer in S by auto. discriminate S.
    + rewrite name_answer in * by auto. destruct (dir_open m (address (ns' ++ [n]))) eqn:O; try discriminate S. apply OP; easy.
Qed.
Print Assumptions C155_pages.

(** Nothing outside the directory of the page has a part in an answer. *)
Theorem C155_confined : forall detect m m' s method path query, same_page m m' ->
  serve detect (with_browser m s query) method path query = serve detect (with_browser m' s query) method path query.
Proof.
  intros detect m m' s method path query (C&TY&I).
  assert (RT : site_root m = site_root m') by (unfold site_root; now rewrite C).
  assert (DP : forall name, dir_path m name = dir_path m' name) by (intro; unfold dir_path; now rewrite RT).
  assert (IN : forall name, site_open m (dir_path m' name) = site_open m' (dir_path m' name) /\ site_listing m (dir_path m' name) = site_listing m' (dir_path m' name)).
  { intros name. rewrite <- DP. apply (I _ (place (dir_path m name)) (place (site_root m))).
    - now apply leads_to_iff.
    - now apply page_place.
    - destruct (some_place name) as (ns&F&P). rewrite (dir_place m name ns F P). now exists ns. }
  assert (OP : forall name, dir_open m name = dir_open m' name).
  { intros name. unfold dir_open. rewrite DP. destruct (IN name) as [-> _]. reflexivity. }
  assert (LS : forall name, dir_list m name = dir_list m' name).
  { intros name. unfold dir_list. rewrite DP. destruct (IN name) as [_ ->]. reflexivity. }
  assert (CT : forall name data, content m name data = content m' name data) by (intros; unfold content; now rewrite TY).
  assert (SF : forall url q, serve_file m url q = serve_file m' url q).
  { intros url q. unfold serve_file. rewrite !OP, !LS. destruct (has_suffix _ _); auto. destruct (dir_open m' (clean url)); auto.
    - destruct (ends_with_slash url); auto.
    - destruct (negb _); auto. destruct (dir_open m' _); auto. }
  assert (BR : browse m method path query = browse m' method path query).
  { unfold browse, file_server. destruct (strip "/" path); [|reflexivity]. now rewrite SF. }
  unfold serve. destruct (negb _); [reflexivity|]. destruct (try_routes method path new_router) as [[] vs|[]]; try reflexivity.
  change (Answer (Some (browse m method path query)) = Answer (Some (browse m' method path query))). now rewrite BR.
Qed.
Print Assumptions C155_confined.

(** ** A small page *)
Definition small_site : site := Site "/srv"
  (fun path =>
     let p := clean path in
     if existsb (String.eqb p) ["/srv"; "/srv/goldlord-midas"; "/srv/goldlord-midas/js"; "/srv/goldlord-midas/folders"; "/srv/goldlord-midas/a?b"]
     then ADirectory
     else match sget p [("/srv/goldlord-midas/index.html", "page"); ("/srv/goldlord-midas/js/app.js", "script");
                        ("/srv/goldlord-midas/folders/x", "hidden"); ("/srv/goldlord-midas/a?b/index.html", "other page");
                        ("/srv/secret", "secret")] with
          | Some data => AFile data
          | None => NotThere
          end)
  (fun path => "listing of " ++ clean path) (fun name _ => name).
Definition no_services : services := Services (fun _ => Ok None) (fun _ _ => Ok None) (fun _ _ _ => Ok None) (fun _ _ => None).
Lemma small_one : one_place small_site.
Proof.
  intros p p' l L L'. apply leads_to_iff in L, L'. unfold small_site. cbn [site_open].
  assert (E : clean p = clean p') by (rewrite !clean_text; congruence). now rewrite E.
Qed.
Lemma small_at ns o : Forall entry_name_ok ns -> site_open small_site (dir_path small_site (address ns)) = o -> at_names small_site ns o.
Proof. intros F <-. now apply opened_here. Qed.
Lemma ok_name x : String.eqb x "" = false -> String.eqb x "." = false -> String.eqb x ".." = false -> has_byte "/" x = false -> entry_name_ok x.
Proof.
  intros A B C D. repeat split; try (intros ->; discriminate). apply free_ascii. intros I. apply byte_of in I. congruence.
Qed.
Ltac names := repeat (constructor; [now apply ok_name|]); constructor.

(** The interface of the reports hides the files of a directory "folders". *)
Theorem C155_folders_refuted : ~ forall detect m s query dirs n data,
  one_place m -> free_of "#" query ->
  Forall entry_name_ok (dirs ++ [n]) -> Forall (fun n => ~ In Ascii.zero (list_ascii_of_string n)) (dirs ++ [n]) ->
  at_names m dirs ADirectory -> at_names m (dirs ++ [n]) (AFile data) ->
  exists x, reaches (fun path query => serve detect (with_browser m s query) "GET" path query) (address (dirs ++ [n])) query x /\
    status x = 200 /\ body x = data.
Proof.
  intros C. destruct (C (fun _ => "") small_site no_services "" ["folders"] "x" "hidden") as (x&R&S&B).
  - apply small_one.
  - exact I.
  - names.
  - repeat constructor; intros I; apply byte_of in I; discriminate I.
  - apply small_at; [names|vm_compute; reflexivity].
  - apply small_at; [names|vm_compute; reflexivity].
  - change (address (["folders"] ++ ["x"])) with "/folders/x" in R.
    inversion R as [? ? ? G _|? ? ? ? ? ? ? ? G S']; subst; vm_compute in G; injection G as <-; [discriminate B|discriminate S'].
Qed.
Print Assumptions C155_folders_refuted.

(** A directory whose name means something in a URL cannot be got without the slash at the end:
    the redirect to the address with it leads elsewhere. *)
Theorem C155_directories_refuted : ~ forall detect m s query ns path,
  one_place m -> free_of "#" query -> Forall entry_name_ok ns -> Forall (fun n => ~ In Ascii.zero (list_ascii_of_string n)) ns ->
  hd "" ns <> "folders" -> last ns "" <> "index.html" ->
  at_names m ns ADirectory -> (path = directory_address ns \/ (ns <> [] /\ path = address ns)) ->
  exists x, reaches (fun path query => serve detect (with_browser m s query) "GET" path query) path query x /\ status x = 200.
Proof.
  intros C. destruct (C (fun _ => "") small_site no_services "" ["a?b"] "/a?b") as (x&R&S); try easy.
  - apply small_one.
  - names.
  - repeat constructor; intros I; apply byte_of in I; discriminate I.
  - apply small_at; [names|vm_compute; reflexivity].
  - now right.
  - inversion R as [? ? ? G S0|? ? ? loc p path' query' ? G S0 H RF M R']; subst; vm_compute in G; injection G as <-; [now apply S0|].
    injection H as <-. destruct RF as (F1&_&_&_&[(_&<-)|(_&_&E)]).
    + cbn in F1. destruct F1 as (_&F1&_). now apply F1.
    + assert (P : p = "a" /\ query' = "b/").
      { destruct p as [|c0 p]; [discriminate E|]. destruct p as [|c1 p].
        - injection E as <- <-. auto.
        - injection E as <- <- _. cbn in F1. destruct F1 as (_&F1&_). now elim F1. }
      destruct P as [-> ->].
      assert (P' : path' = "/a").
      { inversion M as [a0 x0 X0 E0|a0 x0 y0 X0 Y0 E0|a0 x0 y0 X0 Y0 E0 E1|a0 x0 y0 X0 Y0 E0 E1]; subst.
        - destruct a0 as [|c a0]; [reflexivity|]. exfalso. injection E0 as _ E0. apply (f_equal (split "/")) in E0.
          change (a0 ++ "/" ++ x0) with (a0 ++ String "/" x0) in E0. rewrite split_glue in E0. apply (f_equal (@List.length string)) in E0. rewrite app_length in E0.
          pose proof (split_nonnil "/" a0) as Z. pose proof (split_nonnil "/" x0) as Z'. destruct (split "/" a0), (split "/" x0); try contradiction; cbn in E0; lia.
        - destruct y0 as [|? [|? ?]]; discriminate E1. }
      subst path'. inversion R' as [? ? ? G S1|? ? ? loc' p' path'' query'' ? G S1]; subst; vm_compute in G; injection G as <-; [discriminate S|discriminate S1].
Qed.
Print Assumptions C155_directories_refuted.

Example C155_example :
  one_place small_site /\
  (forall s, exists x, reaches (fun path query => serve (fun _ => "") (with_browser small_site s query) "GET" path query) "/js/app.js" "v=1" x /\
     status x = 200 /\ body x = "script") /\
  (forall s, exists x, reaches (fun path query => serve (fun _ => "") (with_browser small_site s query) "GET" path query) "/a?b/index.html" "" x /\
     status x = 200 /\ body x = "other page") /\
  (forall s, exists x, reaches (fun path query => serve (fun _ => "") (with_browser small_site s query) "GET" path query) "/js" "" x /\
     status x = 200 /\ listing_at small_site ["js"] (body x)) /\
  (forall s, exists x, serve (fun _ => "") (with_browser small_site s "") "GET" "/" "" = Answer (Some x) /\ status x = 200 /\ body x = "page") /\
  (forall s, exists x, serve (fun _ => "") (with_browser small_site s "") "GET" "/secret" "" = Answer (Some x) /\ status x = 404) /\
  (exists m', same_page small_site m' /\ site_open m' "/srv/secret" <> site_open small_site "/srv/secret").
Proof.
  assert (Z : forall x, has_byte Ascii.zero x = false -> ~ In Ascii.zero (list_ascii_of_string x)) by (intros x E I; apply byte_of in I; congruence).
  split; [apply small_one|]. split; [|split; [|split; [|split; [|split]]]].
  - intros s. apply (C155_files_partial _ small_site s "v=1" ["js"] "app.js"); try easy.
    + apply small_one.
    + names.
    + repeat (constructor; [now apply Z|]); constructor.
    + apply small_at; [names|vm_compute; reflexivity].
    + apply small_at; [names|vm_compute; reflexivity].
  - intros s. apply (C155_files_partial _ small_site s "" ["a?b"] "index.html"); try easy.
    + apply small_one.
    + names.
    + repeat (constructor; [now apply Z|]); constructor.
    + apply small_at; [names|vm_compute; reflexivity].
    + apply small_at; [names|vm_compute; reflexivity].
  - intros s. destruct (C155_directories_partial (fun _ => "") small_site s "" ["js"] "/js") as (x&R&S&_&L); try easy.
    + apply small_one.
    + constructor; [|constructor]. split; [now apply ok_name|]. intros c0 I0. cbn in I0. destruct I0 as [<-|[<-|[]]]; apply byte_of; reflexivity.
    + apply small_at; [names|vm_compute; reflexivity].
    + now right.
    + exists x. repeat split; auto. apply L. apply small_at; [names|vm_compute; reflexivity].
  - intros s. apply C155_start; [apply small_one|apply small_at; [names|vm_compute; reflexivity]|apply small_at; [names|vm_compute; reflexivity]].
  - intros s. eexists. split; [vm_compute; reflexivity|reflexivity].
  - exists (Site "/srv" (fun path => if String.eqb path "/srv/secret" then NotThere else site_open small_site path) (site_listing small_site) (site_type small_site)).
    split; [|vm_compute; discriminate]. split; [reflexivity|]. split; [reflexivity|]. intros path l d L D I. split; [|reflexivity].
    cbn [site_open]. destruct (String.eqb_spec path "/srv/secret") as [->|]; [|reflexivity]. exfalso.
    apply leads_to_iff in L. apply page_place in D. subst l d. destruct I as (more&E). vm_compute in E. discriminate E.
Qed.
