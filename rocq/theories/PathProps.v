(** C64, C96, C97: files of the global taxonomy set. *)
From Coq Require Import Strings.String Strings.Ascii Lists.List Bool Arith.
From Verif Require Import GoBase GoSpec GoFacts PathModel PathSpec WebProofs PathProofs.
Import ListNotations.
Open Scope string_scope.

Ltac ename := unfold entry_name_ok; cbn; repeat split; discriminate.

(** ** C64 *)

(** .. in the path of the URL climbs out of the host's directory. *)
Theorem C64_refuted : exists parse gts s u f dir ldir l,
  parse s = Ok u /\ entry_name_ok (uScheme u) /\ entry_name_ok (uHostname u) /\
  url_to_filename parse gts s = Ok f /\
  dir = gts ++ "/concepts/" ++ uScheme u ++ "/" ++ uHostname u /\
  leads_to dir ldir /\ leads_to f l /\ ~ inside ldir l.
Proof.
  exists (fun _ => Ok (Url "http" "x.org" "/../../../../etc/passwd")), "/gts", "http://x.org/../../../../etc/passwd".
  do 5 eexists. split; [reflexivity|]. split; [ename|]. split; [ename|]. split; [vm_compute; reflexivity|].
  split; [reflexivity|]. split; [apply leads_to_iff; vm_compute; reflexivity|].
  split; [apply leads_to_iff; vm_compute; reflexivity|].
  intros (more & E). vm_compute in E. discriminate.
Qed.
Print Assumptions C64_refuted.

(** So does a host called .. *)
Theorem C64_host_refuted : exists parse gts s u f ldir l,
  parse s = Ok u /\ uHostname u = ".." /\ no_parent (uPath u) /\ url_to_filename parse gts s = Ok f /\
  leads_to (gts ++ "/concepts/" ++ uScheme u) ldir /\ leads_to f l /\ ~ inside ldir l.
Proof.
  exists (fun _ => Ok (Url "http" ".." "/x.xsd")), "/gts", "http://../x.xsd".
  do 4 eexists. split; [reflexivity|]. split; [reflexivity|]. split; [apply no_parent_iff; cbn; intuition discriminate|].
  split; [vm_compute; reflexivity|]. split; [apply leads_to_iff; vm_compute; reflexivity|].
  split; [apply leads_to_iff; vm_compute; reflexivity|].
  intros (more & E). vm_compute in E. discriminate.
Qed.
Print Assumptions C64_host_refuted.

(** Without .. the file is at <gts>/concepts/<scheme>/<host>/<path>. *)
Theorem C64_inside_partial : forall parse gts s u lg ns,
  parse s = Ok u -> entry_name_ok (uScheme u) -> entry_name_ok (uHostname u) ->
  no_parent (uPath u) -> path_names (uPath u) ns -> leads_to gts lg ->
  exists f, url_to_filename parse gts s = Ok f /\
    forall l, leads_to f l <->
      l = below (below lg ["concepts"; uScheme u; uHostname u]) ns.
Proof.
  intros parse gts s u lg ns E Hs Hh Hp Hn Hg. apply leads_to_iff in Hg. subst lg.
  destruct (url_place_partial parse gts s u ns E Hs Hh Hp Hn) as (f & Hf & Hl). exists f. split; auto.
  intros l. rewrite leads_to_iff, Hl. unfold below. cbn. rewrite <- app_assoc. reflexivity.
Qed.
Print Assumptions C64_inside_partial.

Theorem C64_below_partial : forall parse gts s u lg f l,
  parse s = Ok u -> entry_name_ok (uScheme u) -> entry_name_ok (uHostname u) ->
  no_parent (uPath u) -> leads_to gts lg ->
  url_to_filename parse gts s = Ok f -> leads_to f l ->
  inside (below lg ["concepts"; uScheme u; uHostname u]) l.
Proof.
  intros parse gts s u lg f l E Hs Hh Hp Hg Hf Hl.
  destruct (C64_inside_partial parse gts s u lg _ E Hs Hh Hp (proj2 (path_names_iff _ _) eq_refl) Hg) as (f' & Hf' & H).
  rewrite Hf in Hf'. injection Hf' as <-. apply H in Hl. subst l. eexists. reflexivity.
Qed.
Print Assumptions C64_below_partial.

(** A URL without a scheme or a host is refused. *)
Theorem C64_refused : forall parse gts s u, parse s = Ok u ->
  (uScheme u = "" \/ uHostname u = "") <-> exists m, url_to_filename parse gts s = Err m.
Proof.
  intros parse gts s u E. unfold url_to_filename. rewrite E. cbn [bind].
  destruct (uScheme u) as [|c sch]; cbn [nonempty negb]; [split; eauto|].
  destruct (uHostname u) as [|c' h]; cbn [nonempty negb]; [split; eauto|].
  split; [intros [H|H]; discriminate|intros [m H]; discriminate].
Qed.
Print Assumptions C64_refused.

Example C64_example :
  let u := Url "http" "fasb.org" "/us-gaap/2023//elts/./us-gaap.xsd" in
  entry_name_ok (uScheme u) /\ entry_name_ok (uHostname u) /\ no_parent (uPath u) /\
  path_names (uPath u) ["us-gaap"; "2023"; "elts"; "us-gaap.xsd"] /\
  leads_to "../gts" (Location false 1 ["gts"]) /\
  url_to_filename (fun _ => Ok u) "../gts" "" = Ok "../gts/concepts/http/fasb.org/us-gaap/2023/elts/us-gaap.xsd".
Proof.
  intros u. split; [ename|]. split; [ename|]. split; [apply no_parent_iff; cbn; intuition discriminate|].
  split; [apply path_names_iff; reflexivity|]. split; [apply leads_to_iff; reflexivity|reflexivity].
Qed.

(** ** C96 *)

(** A file that is not there gives no error and no bytes. *)
Theorem C96_refuted : exists parse gts s,
  (exists f, url_to_filename parse gts s = Ok f) /\
  forall stat read_file, (forall p, stat p = None) -> (forall p, read_file p = None) ->
  discover_global_file parse gts stat read_file s = Ok None.
Proof.
  exists (fun _ => Ok (Url "http" "x.org" "/x.xsd")), "gts", "http://x.org/x.xsd".
  split; [eexists; reflexivity|]. intros stat read_file H _. unfold discover_global_file.
  replace (url_to_filename _ _ _) with (Ok "gts/concepts/http/x.org/x.xsd") by reflexivity. cbn [bind]. now rewrite H.
Qed.
Print Assumptions C96_refuted.

(** A file that is there is returned, bytes without a file are never
    returned, and the file read is the one the URL is mapped to. *)
Theorem C96_bytes_partial : forall parse gts stat read_file s f,
  url_to_filename parse gts s = Ok f ->
  (forall name, stat f = Some name -> name = base f) ->
  forall b, discover_global_file parse gts stat read_file s = Ok (Some b) <->
            (exists name, stat f = Some name) /\ read_file f = Some b.
Proof.
  intros parse gts stat read_file s f Hf Hs b. unfold discover_global_file. rewrite Hf. cbn [bind].
  destruct (url_text _ _ _ _ Hf) as (l & Hl & ->).
  destruct (stat (text l)) as [name|] eqn:E.
  - rewrite (Hs name eq_refl), rejoin by auto. destruct (read_file (text l)) as [b'|].
    + split; [intros [= <-]; eauto|intros [_ [= <-]]; reflexivity].
    + split; [discriminate|intros [_ [=]]].
  - split; [discriminate|intros [[n [=]] _]].
Qed.
Print Assumptions C96_bytes_partial.

(** A schema that is not there is still an error, if the decoder refuses an
    empty document. *)
Theorem C96_schema_partial : forall parse gts stat read_file (A : Type) (decode : string -> res A) s f,
  url_to_filename parse gts s = Ok f -> stat f = None -> (exists m, decode "" = Err m) ->
  exists m, discover_global_schema parse gts stat read_file A decode s = Err m.
Proof.
  intros parse gts stat read_file A decode s f Hf Hs Hd. unfold discover_global_schema, discover_global_file.
  rewrite Hf. cbn [bind]. now rewrite Hs.
Qed.
Print Assumptions C96_schema_partial.

Example C96_example :
  let parse := fun _ : string => Ok (Url "http" "x.org" "/a/x.xsd") in
  url_to_filename parse "gts" "" = Ok "gts/concepts/http/x.org/a/x.xsd" /\
  base "gts/concepts/http/x.org/a/x.xsd" = "x.xsd" /\
  discover_global_file parse "gts" (fun _ => Some "x.xsd")
    (fun p => if String.eqb p "gts/concepts/http/x.org/a/x.xsd" then Some "<schema/>" else None) "" = Ok (Some "<schema/>").
Proof. repeat split. Qed.

(** ** C97 *)

Theorem C97_refuted : exists parse gts s s' u u' ns ns',
  parse s = Ok u /\ parse s' = Ok u' /\
  entry_name_ok (uScheme u) /\ entry_name_ok (uHostname u) /\ uScheme u' = uScheme u /\ uHostname u' <> uHostname u /\
  path_names (uPath u) ns /\ path_names (uPath u') ns' /\
  url_to_filename parse gts s = url_to_filename parse gts s'.
Proof.
  exists (fun s => if String.eqb s "http://a.org/../b.org/x.xsd" then Ok (Url "http" "a.org" "/../b.org/x.xsd")
                   else Ok (Url "http" "b.org" "/x.xsd")), "gts", "http://a.org/../b.org/x.xsd", "http://b.org/x.xsd".
  do 4 eexists. split; [reflexivity|]. split; [reflexivity|]. split; [ename|]. split; [ename|]. split; [reflexivity|].
  split; [discriminate|]. split; [apply path_names_iff; reflexivity|]. split; [apply path_names_iff; reflexivity|].
  vm_compute. reflexivity.
Qed.
Print Assumptions C97_refuted.

Theorem C97_distinct_partial : forall parse gts s s' u u' ns ns',
  parse s = Ok u -> parse s' = Ok u' ->
  entry_name_ok (uScheme u) -> entry_name_ok (uHostname u) -> no_parent (uPath u) -> path_names (uPath u) ns ->
  entry_name_ok (uScheme u') -> entry_name_ok (uHostname u') -> no_parent (uPath u') -> path_names (uPath u') ns' ->
  (url_to_filename parse gts s = url_to_filename parse gts s' <->
   uScheme u = uScheme u' /\ uHostname u = uHostname u' /\ ns = ns').
Proof.
  intros parse gts s s' u u' ns ns' E E' H1 H2 H3 H4 H1' H2' H3' H4'.
  destruct (url_place_partial parse gts s u ns E H1 H2 H3 H4) as (f & Hf & Hl).
  destruct (url_place_partial parse gts s' u' ns' E' H1' H2' H3' H4') as (f' & Hf' & Hl').
  rewrite Hf, Hf'. split.
  - intros [= <-]. rewrite Hl in Hl'. unfold below in Hl'. injection Hl' as Hn. apply app_inv_head in Hn. now injection Hn.
  - intros (A & B & C). destruct (url_text _ _ _ _ Hf) as (l & Hok & ->), (url_text _ _ _ _ Hf') as (l' & Hok' & ->).
    rewrite place_text in Hl, Hl' by auto. subst l l'. rewrite A, B, C. reflexivity.
Qed.
Print Assumptions C97_distinct_partial.

Example C97_example :
  no_parent "/a/x.xsd" /\ no_parent "/a//x.xsd" /\ path_names "/a/x.xsd" ["a"; "x.xsd"] /\ path_names "/a//x.xsd" ["a"; "x.xsd"].
Proof.
  split; [apply no_parent_iff; cbn; intuition discriminate|]. split; [apply no_parent_iff; cbn; intuition discriminate|].
  split; apply path_names_iff; reflexivity.
Qed.
