(** What inlining the images of a folder may change. *)
From Coq Require Import Strings.String Strings.Ascii Lists.List Bool.
From Verif Require Import GoBase GoSpec ImageModel.
Import ListNotations.
Open Scope string_scope.

(** The file name at the end of a reference: what follows the last slash,
    trailing slashes not counted *)
Fixpoint all_slashes (s : string) : Prop :=
  match s with EmptyString => True | String c r => c = "/"%char /\ all_slashes r end.
Definition file_name (ref name : string) : Prop :=
  name <> "" /\ free_of "/" name /\
  exists dir trail, ref = dir ++ name ++ trail /\ all_slashes trail /\
    (dir = "" \/ exists d, dir = d ++ "/").

Section WithImages.
  Variable images : list (string * string).

  (** An attribute before and after *)
  Inductive attr_inlined (img : Prop) (a : html_attr) : html_attr -> Prop :=
  | inlined_image : forall name data, img -> haKey a = "src" -> file_name (haVal a) name -> In (name, data) images ->
      attr_inlined img a (HtmlAttr (haNamespace a) "src" data)
  | inlined_kept : (img -> haKey a = "src" -> forall name data, file_name (haVal a) name -> ~ In (name, data) images) ->
      attr_inlined img a a.

  (** A tree before and after *)
  Inductive inlined : html_node -> html_node -> Prop :=
  | inlined_node : forall t data ns attrs attrs' children children',
      Forall2 (attr_inlined (t = ElementNode /\ data = "img")) attrs attrs' ->
      inlined_all children children' ->
      inlined (HtmlNode t data ns attrs children) (HtmlNode t data ns attrs' children')
  with inlined_all : list html_node -> list html_node -> Prop :=
  | inlined_nil : inlined_all [] []
  | inlined_cons : forall n n' ns ns', inlined n n' -> inlined_all ns ns' -> inlined_all (n :: ns) (n' :: ns').
End WithImages.

(** The images of a folder and their data URIs: its files that are readable
    and look like JPEG or PNG *)
Definition folder_image (detect base64 : string -> string) (fs : list dir_entry) (name uri : string) : Prop :=
  exists f bytes, In f fs /\ deName f = name /\ deIsDir f = false /\ deBytes f = Some bytes /\
    (detect bytes = "image/jpeg" /\ uri = "data:image/jpeg;base64," ++ base64 bytes \/
     detect bytes = "image/png" /\ uri = "data:image/png;base64," ++ base64 bytes).
