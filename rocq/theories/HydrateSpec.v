(** * HydrateSpec: inline documents and complete folders *)
From Coq Require Import String Ascii List.
From Verif Require Import GoSpec AttrModel AttrSpec HydrateModel GoBase SchemaModel LinkbaseModel InstanceModel.
Import ListNotations.
Local Open Scope string_scope.

(** the value of the first attribute with local name [n] *)
Definition attr_of (attrs : list qattr) (n v : string) : Prop :=
  exists a, first_such (fun a => nlocal (qname a) = n) attrs a /\ qvalue a = v.

(** an inline fact named [k], a prefixed name that denotes [x] in a document whose
    root element has the attributes [html], in context [c] *)
Definition inline_fact (html node : list qattr) (k : string) (x : xname) (c : string) : Prop :=
  attr_of node "name" k /\ attr_of node "contextRef" c /\
  exists p l v, k = p ++ ":" ++ l /\ free_of ":" p /\ declares html p v /\ x = XName v l.

(** an inline fact whose prefix is not declared *)
Definition unresolved (html node : list qattr) : Prop :=
  exists p l, attr_of node "name" (p ++ ":" ++ l) /\ free_of ":" p /\ undeclared html p.

(** Inline XBRL requires a name, a QName with a prefix in scope, and a contextRef *)
Definition conforming (html node : list qattr) : Prop := exists k x c, inline_fact html node k x c.

(** no conforming fact is missing from the maps and nothing else is in them *)
Definition describes (s : doc_source) (d : document) : Prop :=
  (forall k x, sget k (docNames d) = Some x <->
     exists node c, In node (dsNonNumerics s ++ dsNonFractions s)%list /\ inline_fact (dsHtml s) node k x c) /\
  (forall c b, sget c (docContexts d) = Some b <->
     b = true /\ exists node k x, In node (dsNonNumerics s ++ dsNonFractions s)%list /\ inline_fact (dsHtml s) node k x c).

(** every file of one kind has been turned into its counterpart, under its name *)
Definition all_loaded {A B} (f : option A -> string -> res B) (files : list (string * A)) (out : list (string * B)) : Prop :=
  map fst out = map fst files /\
  Forall2 (fun kv kw => f (Some (snd kv)) (fst kv) = Ok (snd kw)) files out.
(** some file of one kind cannot be loaded, with the given outcome *)
Definition some_fails {A B} (f : option A -> string -> res B) (files : list (string * A)) (bad : res B) : Prop :=
  exists kv, In kv files /\ f (Some (snd kv)) (fst kv) = bad.
