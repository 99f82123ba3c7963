(** C71, C98: the images of a folder. *)
From Coq Require Import Strings.String Strings.Ascii Lists.List Bool Arith.
From Verif Require Import GoBase GoSpec GoFacts PathModel WebProofs LabelSpec LabelProofs ImageModel ImageSpec ImageProofs.
Import ListNotations.
Open Scope string_scope.

(** ** C71 *)

(** The images are those of processImages: names of directory entries, each
    once (C98). *)
Theorem C71_only_sources : forall images n n',
  is_map images -> (forall name uri, In (name, uri) images -> name <> "." /\ free_of "/" name) ->
  (inlined images n n' <-> n' = replace_images images n).
Proof.
  intros images n n' Hk Hn. split; [now apply inlined_fun|]. intros ->. now apply replace_inlined.
Qed.
Print Assumptions C71_only_sources.

(** The bytes: those of the tree with the sources replaced, or the input when
    it cannot be parsed or the result cannot be written. *)
Theorem C71_bytes : forall parse render src images,
  is_map images -> (forall name uri, In (name, uri) images -> name <> "." /\ free_of "/" name) ->
  (exists n n', parse src = Some n /\ inlined images n n' /\ 
     render n' = Some (transform_inline_images parse render src images)) \/
  transform_inline_images parse render src images = src.
Proof.
  intros parse render src images Hk Hn. unfold transform_inline_images.
  destruct (parse src) as [n|] eqn:Ep; auto. destruct (render (replace_images images n)) as [out|] eqn:Er; auto.
  left. exists n, (replace_images images n). auto using replace_inlined.
Qed.
Print Assumptions C71_bytes.

Example C71_example :
  let images := [("logo.png", "data:image/png;base64,AA==")] in
  let img s := HtmlNode ElementNode "img" "" [HtmlAttr "" "src" s; HtmlAttr "" "alt" "logo.png"] [] in
  let tree s := HtmlNode ElementNode "p" "" [HtmlAttr "" "src" "logo.png"] [img s; img "other.png"] in
  is_map images /\ (forall name uri, In (name, uri) images -> name <> "." /\ free_of "/" name) /\
  file_name "pics/logo.png" "logo.png" /\
  inlined images (tree "pics/logo.png") (tree "data:image/png;base64,AA==").
Proof.
  intros images img tree. assert (Hk : is_map images) by (repeat constructor; intros []).
  assert (Hn : forall name uri, In (name, uri) images -> name <> "." /\ free_of "/" name).
  { intros name uri [[= <- <-]|[]]. split; [discriminate|]. cbn. repeat split; discriminate. }
  split; auto. split; auto. split.
  - split; [discriminate|]. split; [cbn; repeat split; discriminate|]. exists "pics/", "". split; [reflexivity|].
    split; [exact I|]. right. exists "pics". reflexivity.
  - apply C71_only_sources; auto.
Qed.

(** ** C98 *)

Theorem C98_images : forall detect base64 fs, NoDup (map deName fs) ->
  is_map (process_images detect base64 (Some fs)) /\
  forall name uri, In (name, uri) (process_images detect base64 (Some fs)) <-> folder_image detect base64 fs name uri.
Proof.
  intros detect base64 fs Hnd.
  destruct (process_images_fold detect base64 fs [] Hnd (fun f _ H => H) (NoDup_nil _)) as [N H].
  split; [exact N|]. intros name uri. unfold process_images. rewrite H. cbn. tauto.
Qed.
Print Assumptions C98_images.

Example C98_example :
  let detect b := if String.eqb b "PNG" then "image/png" else "text/plain" in
  let fs := [DirEntry "_" false (Some "{}"); DirEntry "a.png" false (Some "PNG"); DirEntry "b.png" false None; DirEntry "pics" true None] in
  NoDup (map deName fs) /\ folder_image detect (fun _ => "UE5H") fs "a.png" "data:image/png;base64,UE5H" /\
  process_images detect (fun _ => "UE5H") (Some fs) = [("a.png", "data:image/png;base64,UE5H")].
Proof.
  intros detect fs. split; [|split; [|reflexivity]].
  - repeat constructor; cbn; intuition discriminate.
  - exists (DirEntry "a.png" false (Some "PNG")), "PNG". split; [now right; left|]. repeat (split; [reflexivity|]). right. split; reflexivity.
Qed.
