(** * BrowserProofs: lemmas about the file server *)
From Coq Require Import String Ascii List Bool Lia.
From Verif Require Import GoBase GoSpec GoFacts PathModel PathSpec PathProofs WebModel WebSpec WebProofs RouterModel RouterSpec RouterProofs RouterProps BrowserModel BrowserSpec.
Import ListNotations.
Local Open Scope string_scope.

(** ** Texts *)
Lemma concat_snoc ns n : ns <> [] -> String.concat "/" (ns ++ [n]) = String.concat "/" ns ++ "/" ++ n.
Proof.
  induction ns as [|a ns IH]; [easy|]. intros _. destruct ns as [|b ns]; [reflexivity|].
  change (String.concat "/" ((a :: b :: ns) ++ [n])) with (a ++ "/" ++ String.concat "/" ((b :: ns) ++ [n])).
  rewrite IH by easy. change (String.concat "/" (a :: b :: ns)) with (a ++ "/" ++ String.concat "/" (b :: ns)).
  now rewrite !append_assoc.
Qed.
(** the address of the directory, without its slash *)
Definition stem (ns : list string) : string := match ns with [] => "" | _ => address ns end.
Lemma address_snoc ns n : address (ns ++ [n]) = stem ns ++ "/" ++ n.
Proof.
  unfold address, stem. destruct ns as [|a ns]; [reflexivity|]. rewrite concat_snoc by easy. reflexivity.
Qed.
Lemma directory_stem ns : directory_address ns = stem ns ++ "/".
Proof. now destruct ns. Qed.
Lemma slash_split ns : Forall entry_name_ok ns -> ns <> [] -> split "/" (address ns) = "" :: ns.
Proof.
  intros F N. unfold address. change ("/" ++ String.concat "/" ns) with ("" ++ String "/" (String.concat "/" ns)).
  rewrite split_glue, split_concat; auto. eapply Forall_impl; [|exact F]. now intros a (_&_&_&A).
Qed.
Lemma directory_split ns : Forall entry_name_ok ns -> split "/" (directory_address ns) = ("" :: ns ++ [""])%list.
Proof.
  intros F. destruct ns as [|a ns]; [reflexivity|]. unfold directory_address.
  change (address (a :: ns) ++ "/") with (address (a :: ns) ++ String "/" ""). rewrite split_glue, slash_split by easy. reflexivity.
Qed.
Lemma filter_names ns : Forall entry_name_ok ns -> filter nonempty ns = ns.
Proof. induction 1 as [|a ns (A&_) _ IH]; cbn; auto. destruct a; [contradiction|]. cbn. now rewrite IH. Qed.
Lemma last_snoc ns (a n d : string) : last (ns ++ [n]) d = n.
Proof. induction ns as [|b ns IH]; cbn; auto. now destruct (ns ++ [n])%list eqn:E; [destruct ns|]. Qed.
Lemma base_of s ns n : s <> "" -> filter nonempty (split "/" s) = (ns ++ [n])%list -> base s = n.
Proof.
  intros N E. unfold base. destruct s as [|c s]; [contradiction|]. rewrite E. destruct ns as [|b ns]; [reflexivity|].
  cbn [app]. now apply last_snoc.
Qed.
Lemma base_address ns n : Forall entry_name_ok (ns ++ [n]) -> base (address (ns ++ [n])) = n.
Proof.
  intros F. apply (base_of _ ns); [easy|]. rewrite slash_split; auto; [|now destruct ns]. cbn. now apply filter_names.
Qed.
Lemma base_directory ns n : Forall entry_name_ok (ns ++ [n]) -> base (directory_address (ns ++ [n])) = n.
Proof.
  intros F. apply (base_of _ ns); [destruct ns; easy|]. rewrite directory_split by auto. cbn. rewrite filter_app. cbn. rewrite app_nil_r. now apply filter_names.
Qed.

(** ** Clean paths *)
Lemma place_address ns : Forall entry_name_ok ns -> place (address ns) = spot ns.
Proof. intros F. change (address ns) with (text (spot ns)). now apply place_text, spot_ok. Qed.
Lemma place_slash p : is_rooted p = true -> place ("/" ++ p) = place p.
Proof. intros R. unfold place, origin. rewrite R. change ("/" ++ p) with ("" ++ String "/" p). now rewrite split_glue. Qed.
Lemma clean_address ns : Forall entry_name_ok ns -> clean (address ns) = address ns.
Proof. intros F. now rewrite clean_text, place_address. Qed.
Lemma clean_directory ns : Forall entry_name_ok ns -> clean (directory_address ns) = address ns.
Proof.
  intros F. destruct ns as [|a ns]; [reflexivity|]. rewrite clean_text. unfold directory_address.
  change (address (a :: ns) ++ "/") with (address (a :: ns) ++ String "/" ""). rewrite place_glue by easy.
  rewrite place_address by auto. reflexivity.
Qed.
Lemma without_address ns : Forall entry_name_ok ns -> without_slash (address ns) = stem ns.
Proof.
  intros F. unfold without_slash. destruct (String.eqb_spec (address ns) "/") as [E|N].
  - apply slash_only in E as ->; auto.
  - destruct ns; [now elim N|reflexivity].
Qed.

Section Site.
  Variable m : site.

  Lemma root_place : place (site_root m) = below (place (site_cwd m)) ["goldlord-midas"].
  Proof.
    unfold site_root. destruct (site_cwd m) as [|c s] eqn:E; [reflexivity|]. unfold join. cbn [filter nonempty]. rewrite clean_text, place_text by apply place_ok.
    change (String.concat "/" [String c s; "goldlord-midas"]) with (String c s ++ String "/" "goldlord-midas").
    rewrite place_glue by easy. reflexivity.
  Qed.
  Lemma page_place l : page_directory m l <-> l = place (site_root m).
  Proof.
    rewrite root_place. unfold page_directory. split.
    - intros (c&L&->). apply leads_to_iff in L. now subst c.
    - intros ->. eexists. split; [now apply leads_to_iff|reflexivity].
  Qed.
  Lemma root_nonempty : nonempty (site_root m) = true.
  Proof.
    unfold site_root, join. destruct (site_cwd m) as [|c s]; cbn [filter nonempty]; rewrite clean_text; apply text_nonempty, place_ok.
  Qed.
  Lemma dir_place name ns : Forall entry_name_ok ns -> place ("/" ++ name) = spot ns ->
    place (dir_path m name) = below (place (site_root m)) ns.
  Proof.
    intros F P. unfold dir_path. rewrite clean_text, P, spot_text. cbn [append].
    assert (J : forall p, nonempty p = true -> place (join [site_root m; p]) = fold_left step (split "/" p) (place (site_root m))).
    { intros p Np. unfold join. cbn [filter]. rewrite root_nonempty, Np. rewrite clean_text, place_text by apply place_ok.
      change (String.concat "/" [site_root m; p]) with (site_root m ++ String "/" p). apply place_glue. intros E. pose proof root_nonempty as R. now rewrite E in R. }
    destruct ns as [|a ns].
    - cbn [String.concat nonempty]. rewrite J by reflexivity. cbn. unfold below. rewrite app_nil_r. now destruct (place (site_root m)).
    - destruct (nonempty (String.concat "/" (a :: ns))) eqn:E.
      + rewrite J by auto. rewrite split_concat; [|easy|eapply Forall_impl; [|exact F]; now intros b (_&_&_&B)].
        destruct (place (site_root m)) as [r u k]. rewrite fold_names by auto. reflexivity.
      + apply nonempty_false in E. inversion F as [|? ? (A&_) _]; subst. destruct a; [contradiction|]. destruct ns; discriminate E.
  Qed.
  Lemma some_place name : exists ns, Forall entry_name_ok ns /\ place ("/" ++ name) = spot ns.
  Proof. destruct (rooted_place ("/" ++ name) eq_refl) as (ns&F&P). eauto. Qed.
  Lemma dir_address ns : Forall entry_name_ok ns -> place (dir_path m (address ns)) = below (place (site_root m)) ns.
  Proof. intros F. apply dir_place; auto. rewrite place_slash by reflexivity. now apply place_address. Qed.

  Lemma opened_here ns : Forall entry_name_ok ns -> at_names m ns (site_open m (dir_path m (address ns))).
  Proof.
    intros F. exists (place (site_root m)), (dir_path m (address ns)). repeat split.
    - now apply page_place.
    - apply leads_to_iff. now rewrite dir_address.
  Qed.
  Lemma listed_here ns : Forall entry_name_ok ns -> listing_at m ns (site_listing m (dir_path m (address ns))).
  Proof.
    intros F. exists (place (site_root m)), (dir_path m (address ns)). repeat split.
    - now apply page_place.
    - apply leads_to_iff. now rewrite dir_address.
  Qed.
  Lemma opened_at ns o : one_place m -> Forall entry_name_ok ns -> at_names m ns o -> site_open m (dir_path m (address ns)) = o.
  Proof.
    intros O F (l&p&L&P&<-). apply page_place in L. subst l. apply (O _ _ (below (place (site_root m)) ns)); auto.
    apply leads_to_iff. now rewrite dir_address.
  Qed.

  Lemma byte_of c s : has_byte c s = true <-> In c (list_ascii_of_string s).
  Proof.
    induction s as [|a s IH]; cbn; [easy|]. rewrite orb_true_iff, IH. destruct (Ascii.eqb_spec a c); intuition (auto; discriminate).
  Qed.
  Lemma open_good ns : Forall entry_name_ok ns -> has_byte Ascii.zero (address ns) = false ->
    dir_open m (address ns) = site_open m (dir_path m (address ns)).
  Proof.
    intros F Z. unfold dir_open. rewrite clean_text, place_slash by reflexivity. rewrite place_address by auto. change (text (spot ns)) with (address ns). now rewrite Z.
  Qed.
  Lemma open_any ns : dir_open m (address ns) = NotReadable \/ dir_open m (address ns) = site_open m (dir_path m (address ns)).
  Proof. unfold dir_open. destruct (has_byte _ _); auto. Qed.

  (** ** What is answered for each form of an address *)
  Lemma suffix_iff s t : has_suffix t s = true <-> exists a, s = a ++ t.
  Proof.
    induction s as [|c s IH]; cbn [has_suffix].
    - rewrite orb_false_r, String.eqb_eq. split; [intros <-; now exists ""|]. intros (a&E). now destruct a.
    - rewrite orb_true_iff, String.eqb_eq, IH. split.
      + intros [<-|(a&->)]; [now exists ""|now exists (String c a)].
      + intros ([|b a]&E); [now left|]. right. injection E as -> ->. eauto.
  Qed.
  Lemma index_suffix ns n : Forall entry_name_ok (ns ++ [n]) -> has_suffix "/index.html" (address (ns ++ [n])) = String.eqb n "index.html".
  Proof.
    intros F. destruct (String.eqb_spec n "index.html") as [->|N].
    - apply suffix_iff. exists (stem ns). apply address_snoc.
    - destruct (has_suffix _ _) eqn:E; auto. exfalso. apply N. apply suffix_iff in E as (a&E). apply (f_equal (split "/")) in E.
      rewrite slash_split in E; auto; [|now destruct ns].
      change (a ++ "/index.html") with (a ++ String "/" "index.html") in E. rewrite split_glue in E.
      change (split "/" "index.html") with ["index.html"] in E.
      change ("" :: ns ++ [n])%list with (("" :: ns) ++ [n])%list in E. apply app_inj_tail in E. tauto.
  Qed.
  Lemma ends_directory ns : ends_with_slash (directory_address ns) = true.
  Proof. rewrite directory_stem, ends_app; easy. Qed.
  Lemma index_directory ns : has_suffix "/index.html" (directory_address ns) = false.
  Proof.
    destruct (has_suffix _ _) eqn:E; auto. apply suffix_iff in E as (a&E). pose proof (ends_directory ns) as D. rewrite E, ends_app in D; easy.
  Qed.

  Lemma index_answer ns query : Forall entry_name_ok (ns ++ ["index.html"]) ->
    serve_file m (address (ns ++ ["index.html"])) query = local_redirect "./" query.
  Proof. intros F. unfold serve_file. now rewrite index_suffix. Qed.
  Lemma name_answer ns n query : Forall entry_name_ok (ns ++ [n]) -> n <> "index.html" ->
    serve_file m (address (ns ++ [n])) query =
    match dir_open m (address (ns ++ [n])) with
    | NotThere => file_error "404 page not found" 404
    | NotAllowed => file_error "403 Forbidden" 403
    | NotReadable => file_error "500 Internal Server Error" 500
    | ADirectory => local_redirect (n ++ "/") query
    | AFile data => content m n data
    end.
  Proof.
    intros F N. unfold serve_file. rewrite index_suffix by auto. destruct (String.eqb_spec n "index.html"); [contradiction|].
    rewrite clean_address, base_address by auto. assert (E : ends_with_slash (address (ns ++ [n])) = false) by (apply slash_ends; auto; now destruct ns). now rewrite E.
  Qed.
  Lemma directory_answer ns query : Forall entry_name_ok ns ->
    serve_file m (directory_address ns) query =
    match dir_open m (address ns) with
    | NotThere => file_error "404 page not found" 404
    | NotAllowed => file_error "403 Forbidden" 403
    | NotReadable => file_error "500 Internal Server Error" 500
    | ADirectory =>
        match dir_open m (address (ns ++ ["index.html"])) with
        | AFile data => content m "index.html" data
        | ADirectory => dir_list m (address (ns ++ ["index.html"]))
        | _ => dir_list m (address ns)
        end
    | AFile data => if String.eqb (base (directory_address ns)) "/" then file_error "http: attempting to traverse a non-directory" 500
                    else local_redirect ("../" ++ base (directory_address ns)) query
    end.
  Proof.
    intros F. unfold serve_file. rewrite index_directory, ends_directory, clean_directory, without_address by auto. cbn [negb].
    change (stem ns ++ "/index.html") with (stem ns ++ "/" ++ "index.html"). now rewrite <- address_snoc.
  Qed.

  (** ** The route to the file server *)
  Lemma tidy_forms path : tidy path -> exists ns, Forall entry_name_ok ns /\ (path = directory_address ns \/ (ns <> [] /\ path = address ns)).
  Proof.
    intros (ns&F&[->|(N&->)]); exists ns; split; auto.
    - destruct ns; [now left|]. right. split; easy.
    - left. destruct ns; [contradiction|]. unfold directory_address, address. now rewrite append_assoc.
  Qed.
  Lemma tidy_address ns : Forall entry_name_ok ns -> tidy (address ns).
  Proof. intros F. exists ns. split; auto. Qed.
  Lemma tidy_directory ns : Forall entry_name_ok ns -> tidy (directory_address ns).
  Proof.
    intros F. exists ns. split; auto. destruct ns as [|a ns]; [now left|]. right. split; [easy|]. unfold directory_address, address. now rewrite append_assoc.
  Qed.
  Lemma tidy_strip path : tidy path -> exists p, path = "/" ++ p /\ is_rooted p = false.
  Proof.
    intros (ns&F&E).
    assert (G : forall x, is_rooted (String.concat "/" ns ++ x) = match ns with [] => is_rooted x | _ => false end).
    { intros x. destruct ns as [|a ns]; [reflexivity|]. inversion F as [|? ? (A&_&_&Fr) _]; subst. destruct a as [|c a]; [contradiction|].
      destruct Fr as [Fr _]. destruct ns; cbn; destruct (Ascii.eqb_spec c "/"); auto; contradiction. }
    destruct E as [->|(N&->)]; eexists; (split; [reflexivity|]).
    - rewrite <- (append_nil_r (String.concat "/" ns)), G. now destruct ns.
    - rewrite G. now destruct ns.
  Qed.
  Lemma browse_tidy path query : tidy path -> browse m "GET" path query = serve_file m path query.
  Proof.
    intros T. apply tidy_strip in T as (p&->&R). unfold browse. rewrite (strip_app "/" p). unfold file_server. rewrite R. reflexivity.
  Qed.
  Lemma got detect s path query : tidy path -> addressed path Elsewhere ->
    serve detect (with_browser m s query) "GET" path query = Answer (Some (serve_file m path query)).
  Proof.
    intros T A. destruct (C123_get detect (with_browser m s query) path query Elsewhere T A) as (x&E&X).
    rewrite E, X. change (svFiles (with_browser m s query) "GET" path) with (Some (browse m "GET" path query)). now rewrite browse_tidy.
  Qed.
End Site.

Lemma elsewhere_split path : hd "" (tl (split "/" path)) <> "folders" -> addressed path Elsewhere.
Proof.
  intros H.
  assert (G : forall r, path <> "/folders/" ++ r).
  { intros r ->. apply H. change ("/folders/" ++ r) with ("/folders" ++ String "/" r). rewrite split_glue. reflexivity. }
  apply ad_elsewhere; intros; apply G.
Qed.
Lemma elsewhere_address ns : Forall entry_name_ok ns -> ns <> [] -> hd "" ns <> "folders" -> addressed (address ns) Elsewhere.
Proof. intros F N H. apply elsewhere_split. now rewrite slash_split. Qed.
Lemma elsewhere_directory ns : Forall entry_name_ok ns -> hd "" ns <> "folders" -> addressed (directory_address ns) Elsewhere.
Proof. intros F H. apply elsewhere_split. rewrite directory_split by auto. now destruct ns. Qed.
