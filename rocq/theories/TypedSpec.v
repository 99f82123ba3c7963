(** * TypedSpec: contents of typed members, and what it means to be done with one *)
From Coq Require Import String List.
From Verif Require Import GoBase AttrModel SchemaModel InstanceModel TypedModel.
Import ListNotations.
Local Open Scope string_scope.

(** the names of UTF-8 *)
Definition names_utf8 (encoding : string) : Prop :=
  exists u t f, In u ["u"; "U"] /\ In t ["t"; "T"] /\ In f ["f"; "F"] /\ encoding = u ++ t ++ f ++ "-8".
(** a declaration of UTF-8, or of no encoding *)
Definition harmless_encoding (encoding : string) : Prop := encoding = "" \/ names_utf8 encoding.
(** contents of documents that can be read: their encodings are known ([known]: golang.org/x/net/html/charset) *)
Definition readable (known : string -> Prop) (content : list markup) : Prop :=
  forall enc, In (Declaration enc) content -> harmless_encoding enc \/ known enc.
(** contents without declarations of other encodings *)
Definition ordinary (content : list markup) : Prop := forall enc, In (Declaration enc) content -> harmless_encoding enc.

(** the tokens of an ordinary content *)
Definition token_of (m : markup) : token := match m with Markup t => t | Declaration _ => TokOther end.

(** reading ends with [r] *)
Definition ends (q : qenv) attrs dimension content (r : res (list (string * string) * list tarc)) : Prop :=
  exists k, forall j, (k <= j)%nat -> after_rounds q attrs dimension content j = Returned r.
