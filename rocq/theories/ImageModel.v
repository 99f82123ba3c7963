(** Model of pkg/serializables/image.go and of the collection of a folder's
    images (pkg/serializables/folder.go). *)
From Coq Require Import Strings.String Strings.Ascii Lists.List Bool.
From Verif Require Import GoBase PathModel.
Import ListNotations.
Open Scope string_scope.

(** golang.org/x/net/html.Node: the node types, an attribute (Namespace, Key,
    Val), and the tree (the DataAtom, which replace does not touch, is left
    out; siblings and parents are the list of children). *)
Inductive node_type := TextNode | DocumentNode | ElementNode | CommentNode | DoctypeNode | RawNode.
Record html_attr := HtmlAttr { haNamespace : string; haKey : string; haVal : string }.
Inductive html_node := HtmlNode (hType : node_type) (hData hNamespace : string) (hAttr : list html_attr) (hChildren : list html_node).

Definition is_element (t : node_type) : bool := match t with ElementNode => true | _ => false end.

(** pkg/serializables/image.go:28-38, one attribute *)
Definition replace_attr (images : list (string * string)) (a : html_attr) : html_attr :=
  if String.eqb (haKey a) "src" then
    match sget (base (haVal a)) images with
    | Some data => HtmlAttr (haNamespace a) (haKey a) data
    | None => a
    end
  else a.

(** pkg/serializables/image.go:25-42 [replace]; the update in place is the
    returned tree *)
Fixpoint replace_images (images : list (string * string)) (n : html_node) : html_node :=
  match n with
  | HtmlNode t data ns attrs children =>
      HtmlNode t data ns
        (if is_element t && String.eqb data "img" then map (replace_attr images) attrs else attrs)
        (map (replace_images images) children)
  end.

(** pkg/serializables/image.go:10-23 [TransformInlineImages]; html.Parse and
    html.Render are [parse] and [render] *)
Definition transform_inline_images (parse : string -> option html_node) (render : html_node -> option string)
    (src : string) (images : list (string * string)) : string :=
  match parse src with
  | None => src
  | Some root =>
      match render (replace_images images root) with
      | None => src
      | Some out => out
      end
  end.

(** An entry of os.ReadDir with what os.ReadFile gives for it *)
Record dir_entry := DirEntry { deName : string; deIsDir : bool; deBytes : option string }.

(** pkg/serializables/folder.go:361-391 [processImages]; None is a directory
    that cannot be read; [detect] is http.DetectContentType, [base64] is
    base64.StdEncoding.EncodeToString *)
Definition process_images (detect base64 : string -> string) (files : option (list dir_entry)) : list (string * string) :=
  match files with
  | None => []
  | Some fs =>
      fold_left (fun images f =>
        if deIsDir f then images
        else
          match deBytes f with
          | None => images
          | Some bytes =>
              if String.eqb (detect bytes) "image/jpeg" then sset (deName f) ("data:image/jpeg;base64," ++ base64 bytes) images
              else if String.eqb (detect bytes) "image/png" then sset (deName f) ("data:image/png;base64," ++ base64 bytes) images
              else images
          end) fs []
  end.
